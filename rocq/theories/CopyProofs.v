(** Proofs for C63. *)
From Verif Require Import PyStr QuoteModel QuoteSpec QuoteProofs ConstProofs Copy CopySpec.
From Coq Require Import List ZArith Lia.
Open Scope string_scope.

Lemma has_char_app c a b : has_char c (a ++ b) = has_char c a || has_char c b.
Proof. induction a as [|x a IH]; [reflexivity|]. cbn [append has_char]. rewrite IH. now destruct (Ascii.eqb x c). Qed.
Lemma app_assoc_str (a b c : string) : (a ++ b) ++ c = a ++ b ++ c.
Proof. induction a; [reflexivity|]. cbn [append]. now rewrite IHa. Qed.
Lemma app_nil_str (a : string) : a ++ "" = a.
Proof. induction a; [reflexivity|]. cbn [append]. now rewrite IHa. Qed.

(** the first separator *)
Lemma cut_unique c x : forall y s t, has_char c x = false -> has_char c y = false -> x ++ String c s = y ++ String c t -> x = y /\ s = t.
Proof.
  induction x as [|a x IH]; intros [|b y] s t Hx Hy E; cbn [append has_char] in *.
  - injection E as ->. auto.
  - exfalso. injection E as <- _. rewrite Ascii.eqb_refl in Hy. discriminate.
  - exfalso. injection E as -> _. rewrite Ascii.eqb_refl in Hx. discriminate.
  - injection E as <- E. apply orb_false_iff in Hx as [_ Hx]. apply orb_false_iff in Hy as [_ Hy]. destruct (IH y s t Hx Hy E) as [-> ->]. auto.
Qed.
Lemma cut_has c x s : has_char c (x ++ String c s) = true.
Proof. rewrite has_char_app. cbn [has_char]. rewrite Ascii.eqb_refl. now rewrite Bool.orb_true_r. Qed.

Lemma lines_unique s l : lines s l -> forall l', lines s l' -> l = l'.
Proof.
  induction 1 as [|x s l Hx L IH|x Hx N]; intros l' L'.
  - inversion L' as [E|y t m Hy M E|y Hy N E]; [reflexivity| |congruence]. exfalso. destruct y; discriminate.
  - inversion L' as [E|y t m Hy M E|y Hy N E].
    + exfalso. destruct x; discriminate.
    + apply cut_unique in E as [-> ->]; auto. f_equal. now apply IH.
    + exfalso. subst y. change (NL ++ s) with (String LF s) in Hy. rewrite (cut_has LF x s) in Hy. discriminate.
  - inversion L' as [E|y t m Hy M E|y Hy N' E].
    + congruence.
    + exfalso. subst x. change (NL ++ t) with (String LF t) in Hx. rewrite (cut_has LF y t) in Hx. discriminate.
    + reflexivity.
Qed.
Lemma columns_unique s l : columns s l -> forall l', columns s l' -> l = l'.
Proof.
  induction 1 as [x Hx|x s l Hx L IH]; intros l' L'.
  - inversion L' as [y Hy E|y t m Hy M E]; [reflexivity|]. exfalso. subst x. change ("|" ++ t) with (String "|" t) in Hx. rewrite (cut_has "|" y t) in Hx. discriminate.
  - inversion L' as [y Hy E|y t m Hy M E].
    + exfalso. subst y. change ("|" ++ s) with (String "|" s) in Hy. rewrite (cut_has "|" x s) in Hy. discriminate.
    + apply cut_unique in E as [-> ->]; auto. f_equal. now apply IH.
Qed.
Lemma copied_unique s r : copied s r -> forall r', copied s r' -> r = r'.
Proof.
  intros (l & L & F) r' (l' & L' & F'). assert (l' = l) as -> by (symmetry; eapply lines_unique; eauto). clear L L'. revert r' F'.
  induction F as [|x cs l r (c & C & ->) F IH]; intros r' F'; inversion F' as [|? y ? r2 (c' & C' & ->) F2]; subst; [reflexivity|].
  f_equal; [|now apply IH]. f_equal. eapply columns_unique; eauto.
Qed.

Lemma lines_app s l : lines s l -> forall t m, (s = "" \/ exists p, s = p ++ NL) -> lines t m -> lines (s ++ t) (l ++ m).
Proof.
  induction 1 as [|x s l Hx L IH|x Hx N]; intros t m E M; cbn [append app].
  - exact M.
  - rewrite !app_assoc_str. constructor; [exact Hx|]. apply IH; [|exact M]. destruct s as [|a s]; [now left|right]. destruct E as [E|[p E]]; [destruct x; discriminate|].
    revert p E. clear. revert s a. induction x as [|b x IHx]; intros s a p E.
    + destruct p as [|b p]; cbn [append NL] in E; [discriminate|]. injection E as _ E. exists p. exact E.
    + destruct p as [|b' p]; cbn [append] in E; [exfalso; destruct x; discriminate|]. injection E as _ E. exact (IHx s a p E).
  - destruct E as [E|[p E]]; [congruence|]. exfalso. subst x. unfold NL in Hx. rewrite (cut_has LF p "") in Hx. discriminate.
Qed.
Lemma stream_end rs : copy_stream rs = "" \/ exists p, copy_stream rs = p ++ NL.
Proof.
  induction rs as [|r rs IH]; [now left|right]. cbn [copy_stream]. destruct IH as [->|[p ->]].
  - rewrite app_nil_str. unfold copy_line. eauto.
  - exists (copy_line r ++ p). now rewrite app_assoc_str.
Qed.
Lemma stream_app a b : copy_stream (a ++ b) = copy_stream a ++ copy_stream b.
Proof. induction a as [|r a IH]; [reflexivity|]. cbn [app copy_stream]. now rewrite IH, app_assoc_str. Qed.
Lemma copied_app a b r1 r2 : copied (copy_stream a) r1 -> copied (copy_stream b) r2 -> copied (copy_stream (a ++ b)) (r1 ++ r2).
Proof.
  intros (l1 & L1 & F1) (l2 & L2 & F2). exists (l1 ++ l2)%list. rewrite stream_app. split; [|now apply Forall2_app]. apply lines_app; auto. apply stream_end.
Qed.

(** ** Values *)
Lemma digits_free c s : any_char (fun x => negb (is_digit x)) s = false -> is_digit c = false -> has_char c s = false.
Proof.
  intros D N. induction s as [|x s IH]; [reflexivity|]. cbn [any_char has_char] in *. apply orb_false_iff in D as [D1 D2]. apply orb_false_iff. split; [|auto].
  destruct (Ascii.eqb_spec x c) as [->|]; [|reflexivity]. rewrite N in D1. discriminate.
Qed.
Lemma int_free c z : is_digit c = false -> c <> "-"%char -> has_char c (z_to_str z) = false.
Proof.
  intros D N. destruct z as [|p|p]; cbn [z_to_str].
  - apply (digits_free c "0"); [reflexivity|exact D].
  - apply digits_free; [apply n_to_str_digits|exact D].
  - cbn [append has_char]. apply orb_false_iff. split; [now apply Ascii.eqb_neq; intros E; apply N|]. apply digits_free; [apply n_to_str_digits|exact D].
Qed.
Definition texty (v : copyval) : Prop := has_char LF (py_str v) = false /\ has_char "|" (py_str v) = false.

(** *** dates and times *)
Lemma digit_ok k : (k < 10)%N -> is_digit (digit k) = true /\ (N_of_ascii (digit k) - 48 = k)%N.
Proof.
  intros H. assert (X : (k = 0 \/ k = 1 \/ k = 2 \/ k = 3 \/ k = 4 \/ k = 5 \/ k = 6 \/ k = 7 \/ k = 8 \/ k = 9)%N) by lia.
  repeat (destruct X as [-> | X]; [split; reflexivity|]). subst k. split; reflexivity.
Qed.
Lemma decimal_two n k : (k < 100)%N -> decimal n (two k) = Some (100 * n + k)%N.
Proof.
  intros H. assert (A : (k / 10 < 10)%N) by (apply N.div_lt_upper_bound; lia). assert (B : (k mod 10 < 10)%N) by (apply N.mod_lt; lia).
  unfold two. cbn [decimal]. destruct (digit_ok _ A) as [-> ->], (digit_ok _ B) as [-> ->]. pose proof (N.div_mod k 10 ltac:(lia)). f_equal. lia.
Qed.
Lemma decimal_app a : forall n b, decimal n (a ++ b) = match decimal n a with Some m => decimal m b | None => None end.
Proof. induction a as [|c a IH]; intros n b; [reflexivity|]. cbn [append decimal]. destruct (is_digit c); [apply IH|reflexivity]. Qed.
Lemma decimal_four n k : (k < 10000)%N -> decimal n (four k) = Some (10000 * n + k)%N.
Proof.
  intros H. unfold four. rewrite decimal_app. rewrite (decimal_two _ (k / 100)) by (apply N.div_lt_upper_bound; lia). rewrite decimal_two by (apply N.mod_lt; lia).
  pose proof (N.div_mod k 100 ltac:(lia)). f_equal. lia.
Qed.
Lemma number_two k : (k < 100)%N -> number 2 (two k) k.
Proof. intros H. split; [reflexivity|]. rewrite decimal_two by exact H. reflexivity. Qed.
Lemma number_four k : (k < 10000)%N -> number 4 (four k) k.
Proof. intros H. split; [reflexivity|]. rewrite decimal_four by exact H. reflexivity. Qed.
Lemma number_six k : (k < 1000000)%N -> number 6 (six k) k.
Proof.
  intros H. split; [reflexivity|]. unfold six. rewrite decimal_app. rewrite (decimal_two _ (k / 10000)) by (apply N.div_lt_upper_bound; lia). rewrite decimal_four by (apply N.mod_lt; lia).
  pose proof (N.div_mod k 10000 ltac:(lia)). f_equal. lia.
Qed.
Lemma date_means y m d : a_date y m d -> means_date (date_str y m d) y m d.
Proof. intros (Y & M & D). exists (four y), (two m), (two d). split; [reflexivity|]. split; [apply number_four; lia|]. split; apply number_two; lia. Qed.
Lemma time_means h mi s us : a_time h mi s us -> means_time (time_str h mi s us) h mi s us.
Proof.
  intros (H & M & S & U). exists (two h), (two mi), (two s), (if N.eqb us 0 then "" else "." ++ six us). split; [reflexivity|].
  split; [apply number_two; lia|]. split; [apply number_two; lia|]. split; [apply number_two; lia|].
  destruct (N.eqb_spec us 0) as [->|]; [now left|]. right. exists (six us). split; [reflexivity|]. apply number_six. lia.
Qed.
(** a character that is no digit is not in a number *)
Lemma number_free c n s k : is_digit c = false -> number n s k -> has_char c s = false.
Proof.
  intros D [_ H]. revert H. generalize 0%N as a. induction s as [|x s IH]; intros a H; [reflexivity|]. cbn [decimal] in H. destruct (is_digit x) eqn:E; [|discriminate H].
  cbn [has_char]. rewrite (IH _ H). destruct (Ascii.eqb_spec x c) as [->|]; [congruence|reflexivity].
Qed.
Lemma date_free c t y m d : is_digit c = false -> c <> "-"%char -> means_date t y m d -> has_char c t = false.
Proof.
  intros D N (a & b & e & -> & A & B & E). rewrite !has_char_app, (number_free c _ _ _ D A), (number_free c _ _ _ D B), (number_free c _ _ _ D E). cbn [has_char].
  destruct (Ascii.eqb_spec "-" c); [congruence|reflexivity].
Qed.
Lemma time_free c t h mi s us : is_digit c = false -> c <> ":"%char -> c <> "."%char -> means_time t h mi s us -> has_char c t = false.
Proof.
  intros D N P (a & b & e & f & -> & A & B & E & F). rewrite !has_char_app, (number_free c _ _ _ D A), (number_free c _ _ _ D B), (number_free c _ _ _ D E).
  assert (X : has_char c f = false).
  { destruct F as [[-> _]|(g & -> & G)]; [reflexivity|]. rewrite has_char_app, (number_free c _ _ _ D G). cbn [has_char]. destruct (Ascii.eqb_spec "." c); [congruence|reflexivity]. }
  rewrite X. cbn [has_char]. destruct (Ascii.eqb_spec ":" c); [congruence|reflexivity].
Qed.
Lemma temporal_free c v : is_digit c = false -> c <> "-"%char -> c <> ":"%char -> c <> "."%char -> c <> " "%char -> copyable v ->
  match v with VDate _ _ _ | VTime _ _ _ _ | VStamp _ _ _ _ _ _ _ => has_char c (py_str v) = false | _ => True end.
Proof.
  intros D A B E F C. destruct v; try exact Logic.I; cbn [copyable py_str] in *.
  - exact (date_free c _ _ _ _ D A (date_means _ _ _ C)).
  - exact (time_free c _ _ _ _ _ D B E (time_means _ _ _ _ C)).
  - destruct C as [C1 C2]. rewrite !has_char_app, (date_free c _ _ _ _ D A (date_means _ _ _ C1)), (time_free c _ _ _ _ _ D B E (time_means _ _ _ _ C2)). cbn [has_char].
    destruct (Ascii.eqb_spec " " c); [congruence|reflexivity].
Qed.
Lemma temporal_text v : copyable v -> match v with VDate _ _ _ | VTime _ _ _ _ | VStamp _ _ _ _ _ _ _ => texty v /\ py_str v <> "\N" | _ => True end.
Proof.
  intros C. assert (X : forall c, In c [LF; "|"%char; BS] -> match v with VDate _ _ _ | VTime _ _ _ _ | VStamp _ _ _ _ _ _ _ => has_char c (py_str v) = false | _ => True end).
  { intros c I. apply temporal_free; [| | | | |exact C]; destruct I as [<-|[<-|[<-|[]]]]; (reflexivity || discriminate). }
  pose proof (X LF (or_introl eq_refl)) as A. pose proof (X "|"%char (or_intror (or_introl eq_refl))) as B. pose proof (X BS (or_intror (or_intror (or_introl eq_refl)))) as E. clear X.
  destruct v; try exact Logic.I; (split; [split; [exact A|exact B]|]); intros Q; rewrite Q in E; discriminate E.
Qed.
Lemma copyable_text v : copyable v -> texty v /\ py_str v <> "\N".
Proof.
  intros C. pose proof (temporal_text v C) as T. revert C. destruct v; try (intros _; exact T); clear T; cbn [copyable py_str texty]; try contradiction.
  - unfold texty. cbn [py_str]. intros (A & B & C). auto.
  - intros _. unfold texty. cbn [py_str]. split; [split; apply int_free; (reflexivity || discriminate)|].
    intros E. assert (X : has_char BS (z_to_str z) = false) by (apply int_free; [reflexivity|discriminate]). rewrite E in X. discriminate.
  - intros _. destruct b; repeat split; discriminate.
Qed.
Lemma int_arrives z : read_val 1 (z_to_str z) = Some (SInt z, "").
Proof.
  assert (C : constant (PInt z) = Ok (z_to_str z)) by reflexivity. assert (D : denote (PInt z) = Some (SInt z)) by reflexivity.
  pose proof (all_read (PInt z) (z_to_str z) (SInt z) C D 1%nat "") as H. rewrite app_nil_str in H. apply H; [reflexivity|]. split; [intros (r & E); discriminate E|intros (c & r & E & _); discriminate E].
Qed.
Lemma copyable_arrives v : copyable v -> arrives v (cell (py_str v)).
Proof.
  intros C. pose proof (copyable_text v C) as [_ N]. unfold cell. destruct (String.eqb_spec (py_str v) "\N"); [contradiction|].
  destruct v; cbn [copyable arrives py_str] in *; try contradiction; [reflexivity|apply int_arrives| | | |].
  - destruct b; simpl; auto.
  - now apply date_means.
  - now apply time_means.
  - destruct C as [C1 C2]. eexists _, _. split; [reflexivity|]. split; [now apply date_means|now apply time_means].
Qed.

(** ** Records *)
Lemma columns_join x l : has_char "|" x = false -> Forall (fun x => has_char "|" x = false) l -> columns (join_str "|" (x :: l)) (x :: l).
Proof.
  revert x. induction l as [|y l IH]; intros x Hx F; [now constructor|]. inversion F; subst. change (join_str "|" (x :: y :: l)) with (x ++ "|" ++ join_str "|" (y :: l)).
  constructor; auto.
Qed.
Lemma join_free c x l : c <> "|"%char -> has_char c x = false -> Forall (fun x => has_char c x = false) l -> has_char c (join_str "|" (x :: l)) = false.
Proof.
  intros N. revert x. induction l as [|y l IH]; intros x Hx F; [exact Hx|]. inversion F; subst. change (join_str "|" (x :: y :: l)) with (x ++ "|" ++ join_str "|" (y :: l)).
  rewrite !has_char_app, Hx, IH by assumption. cbn [has_char]. rewrite !Bool.orb_false_r. apply Ascii.eqb_neq. congruence.
Qed.
Lemma records_copied rs : Forall (fun r => r <> [] /\ Forall texty r) rs -> copied (copy_stream rs) (map (map (fun v => cell (py_str v))) rs).
Proof.
  intros H. exists (map (fun r => join_str "|" (map py_str r)) rs). split.
  - induction H as [|r rs [N F] H IH]; cbn [copy_stream map]; [constructor|]. unfold copy_line. rewrite app_assoc_str. constructor; [|exact IH].
    destruct r as [|v r]; [congruence|]. inversion F as [|? ? [A B] F']; subst. cbn [map]. apply join_free; [discriminate|exact A|]. apply Forall_map. eapply Forall_impl; [|exact F']. intros w [X _]. exact X.
  - induction H as [|r rs [N F] H IH]; cbn [map]; constructor; [|exact IH]. exists (map py_str r). split; [|now rewrite map_map].
    destruct r as [|v r]; [congruence|]. inversion F as [|? ? [A B] F']; subst. apply columns_join; [exact B|]. apply Forall_map. eapply Forall_impl; [|exact F']. intros w [_ X]. exact X.
Qed.
Theorem rows_arrive rs : Forall (fun r => r <> [] /\ Forall copyable r) rs -> exists rows, copied (copy_stream rs) rows /\ Forall2 (Forall2 arrives) rs rows.
Proof.
  intros H. exists (map (map (fun v => cell (py_str v))) rs). split.
  - apply records_copied. eapply Forall_impl; [|exact H]. intros r [N F]. split; [exact N|]. eapply Forall_impl; [|exact F]. intros v C. exact (proj1 (copyable_text v C)).
  - induction H as [|r rs [_ F] H IH]; constructor; [|exact IH]. clear IH. induction F as [|v r C F IH]; constructor; [now apply copyable_arrives|exact IH].
Qed.
