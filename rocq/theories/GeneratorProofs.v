From Verif Require Import PyStr QuoteModel Types Objects Convert ConvertSpec ConvertProofs CloseSpec CloseProofs1 Reverse Generator GeneratorSpec.
From Coq Require Import Permutation Lia.
Open Scope string_scope.

(** ** Computations *)
Lemma rbind_ok {A B} (x : R A) (f : A -> R B) i b j : rbind x f i = Ok (b, j) -> exists a k, x i = Ok (a, k) /\ f a k = Ok (b, j).
Proof. unfold rbind. destruct (x i) as [[a k]|e]; [|discriminate]. eauto. Qed.
Lemma ret_inv {A} (a b : A) i j : ret a i = Ok (b, j) -> a = b /\ i = j.
Proof. intros [= <- <-]. auto. Qed.
Lemma seq_all_ok {A} (l : list (R A)) : forall i r j, seq_all l i = Ok (r, j) -> Forall2 (fun x a => exists i j, x i = Ok (a, j)) l r.
Proof.
  induction l as [|x l IH]; intros i r j H; cbn in H; [injection H as <- <-; constructor|].
  apply rbind_ok in H as (a & k & H1 & H2). apply rbind_ok in H2 as (b & m & H2 & H3). injection H3 as <- <-. constructor; eauto.
Qed.
Lemma Forall2_len {A B} (P : A -> B -> Prop) l m : Forall2 P l m -> length l = length m.
Proof. induction 1; cbn; auto. Qed.
Section Random.
Variable src : nat -> N.
Lemma below_ok n i a j : below src n i = Ok (a, j) -> (a < n)%N /\ j = S i.
Proof. unfold below. destruct (N.eqb_spec n 0); [discriminate|]. intros [= <- <-]. split; [apply N.mod_lt; lia|reflexivity]. Qed.
Lemma randint_ok a b i z j : randint src a b i = Ok (z, j) -> (a <= z <= b)%Z.
Proof.
  unfold randint. destruct (Z.ltb_spec b a); [discriminate|]. intros E. apply rbind_ok in E as (n & k & E1 & E2). injection E2 as <- <-. apply below_ok in E1 as [E1 _]. lia.
Qed.
Lemma randrange_ok n i z j : randrange src n i = Ok (z, j) -> (0 <= z < n)%Z.
Proof. unfold randrange. destruct (Z.leb_spec n 0); [discriminate|]. intros E. apply rbind_ok in E as (m & k & E1 & E2). injection E2 as <- <-. apply below_ok in E1 as [E1 _]. lia. Qed.
Lemma choice_ok {A} (l : list A) i a j : choice src l i = Ok (a, j) -> In a l.
Proof.
  unfold choice. intros E. apply rbind_ok in E as (n & k & _ & E). destruct (nth_error l (N.to_nat n)) eqn:X; [|discriminate]. injection E as <- <-. eapply nth_error_In; eauto.
Qed.
Lemma choices_ok {A} (l : list A) k i r j : choices src l k i = Ok (r, j) -> length r = Z.to_nat k /\ Forall (fun a => In a l) r.
Proof.
  unfold choices. intros E. apply seq_all_ok in E. split.
  - rewrite <- (Forall2_len _ _ _ E). apply repeat_length.
  - remember (repeat (choice src l) (Z.to_nat k)) as xs eqn:X. assert (Y : forall x, In x xs -> x = choice src l) by (intros x I; subst; eapply repeat_spec; eauto). clear X.
    induction E as [|x a xs r (i' & j' & H) E IH]; constructor; [|apply IH; intros y I; apply Y; now right].
    rewrite (Y x (or_introl eq_refl)) in H. eapply choice_ok; eauto.
Qed.

(** ** Shuffling *)
Lemma set_at_split {A} (a x : A) l1 l2 : set_at (length l1) a (l1 ++ x :: l2) = (l1 ++ a :: l2)%list.
Proof. unfold set_at. rewrite firstn_app, skipn_app, firstn_all, skipn_all, Nat.sub_diag. cbn. now rewrite app_nil_r. Qed.
Lemma set_at_length {A} i (a : A) l : length (set_at i a l) = length l.
Proof.
  unfold set_at. rewrite app_length, firstn_length. destruct (skipn i l) as [|x r] eqn:E.
  - assert (L := skipn_length i l). rewrite E in L. cbn in *. lia.
  - assert (L := skipn_length i l). rewrite E in L. cbn in *. lia.
Qed.
Lemma swap_perm_lt {A} i j (l : list A) : (i < j)%nat -> Permutation (swap i j l) l /\ Permutation (swap j i l) l.
Proof.
  intros LT. unfold swap. destruct (nth_error l i) as [a|] eqn:E1; [|destruct (nth_error l j); auto]. destruct (nth_error l j) as [b|] eqn:E2; [|auto].
  destruct (nth_error_split l i E1) as (l1 & l2 & -> & L1).
  assert (X : exists m1 m2, l2 = (m1 ++ b :: m2)%list /\ j = length (l1 ++ a :: m1)).
  { rewrite nth_error_app2 in E2 by lia. destruct (j - length l1)%nat as [|q] eqn:Q; [lia|]. cbn in E2. destruct (nth_error_split l2 q E2) as (m1 & m2 & -> & L2). exists m1, m2. split; [reflexivity|]. rewrite app_length. cbn. lia. }
  destruct X as (m1 & m2 & -> & ->). subst i.
  assert (P : Permutation (l1 ++ b :: m1 ++ a :: m2) (l1 ++ a :: m1 ++ b :: m2)).
  { apply Permutation_app_head. eapply Permutation_trans; [apply perm_skip, Permutation_sym, Permutation_middle|]. eapply Permutation_trans; [apply perm_swap|]. apply perm_skip, Permutation_middle. }
  assert (S1 : set_at (length (l1 ++ a :: m1)) a (l1 ++ a :: m1 ++ b :: m2) = (l1 ++ a :: m1 ++ a :: m2)%list).
  { assert (H := set_at_split a b (l1 ++ a :: m1) m2). rewrite <- !app_assoc in H. exact H. }
  assert (S2 : set_at (length l1) b (l1 ++ a :: m1 ++ b :: m2) = (l1 ++ b :: m1 ++ b :: m2)%list) by apply set_at_split.
  rewrite S1, S2. rewrite set_at_split. split; [exact P|].
  assert (S3 : set_at (length (l1 ++ a :: m1)) a (l1 ++ b :: m1 ++ b :: m2) = (l1 ++ b :: m1 ++ a :: m2)%list).
  { assert (H := set_at_split a b (l1 ++ b :: m1) m2). rewrite <- !app_assoc in H. rewrite !app_length in *. exact H. }
  rewrite S3. exact P.
Qed.
Lemma swap_perm {A} i j (l : list A) : Permutation (swap i j l) l.
Proof.
  destruct (Nat.lt_trichotomy i j) as [L|[->|L]]; [apply (swap_perm_lt i j l L)| |apply (swap_perm_lt j i l L)].
  unfold swap. destruct (nth_error l j) as [a|] eqn:E; [|auto]. destruct (nth_error_split l j E) as (l1 & l2 & -> & <-). now rewrite !set_at_split.
Qed.
Lemma shuffle_from_perm {A} n : forall (l : list A) i r j, shuffle_from src n l i = Ok (r, j) -> Permutation r l.
Proof.
  induction n as [|n IH]; intros l i r j H; cbn [shuffle_from] in H; [injection H as <- <-; auto|].
  apply rbind_ok in H as (a & k & _ & H). apply IH in H. eapply Permutation_trans; [exact H|]. apply swap_perm.
Qed.
Lemma shuffle_perm {A} (l : list A) i r j : shuffle src l i = Ok (r, j) -> Permutation r l.
Proof. apply shuffle_from_perm. Qed.
Lemma shuffle_from_total {A} n : forall (l : list A) i, exists r j, shuffle_from src n l i = Ok (r, j).
Proof.
  induction n as [|n IH]; intros l i; cbn [shuffle_from]; [eexists _, _; reflexivity|]. unfold rbind, below. destruct (N.eqb_spec (N.of_nat (S n) + 1) 0); [lia|]. apply IH.
Qed.

(** ** Numbers *)
Lemma number_snoc ds d : number (ds ++ [d]) = (10 * number ds + N.of_nat d)%N.
Proof. unfold number. now rewrite fold_left_app. Qed.
Lemma number_bound ds : Forall (fun d => In d ten_digits) ds -> (number ds < 10 ^ N.of_nat (length ds))%N.
Proof.
  induction ds as [|d ds IH] using rev_ind; intros F; [cbn; lia|]. apply Forall_app in F as [F1 F2]. inversion F2 as [|? ? D _]; subst.
  rewrite number_snoc, app_length. cbn [length]. replace (N.of_nat (length ds + 1)) with (N.succ (N.of_nat (length ds))) by lia. rewrite N.pow_succ_r'.
  specialize (IH F1). unfold ten_digits in D. apply in_seq in D. lia.
Qed.
Lemma alphanumeric_length l : String.length (string_of_list_ascii l) = length l.
Proof. induction l as [|c l IH]; cbn; auto. Qed.
End Random.

(** ** Types and values *)
Section Values.
Variable env : cid -> classdef.
Notation is_value := (is_value env).
Lemma value_ann t ms v : is_value t v -> Forall (fun m => obeys m v) ms -> is_value (mk_ann t ms) v.
Proof.
  intros H F. unfold mk_ann. destruct ms as [|m ms]; [exact H|]. destruct t; try (now constructor). inversion H; subst.
  - constructor; [assumption|]. apply Forall_app. now split.
Qed.
Lemma value_unwrap t v : is_value (unwrap t) v -> Forall (fun m => obeys m v) (metadata t) -> is_value t v.
Proof. destruct t; cbn; auto. intros H F. now constructor. Qed.
Lemma value_mk_union l l' v : is_value (mk_union l') v -> incl l' l -> is_value (YUnion l) v.
Proof.
  intros H I. unfold mk_union in H. destruct l' as [|x [|y r]].
  - inversion H; subst. match goal with X : In _ [] |- _ => destruct X end.
  - apply (iv_union _ l x); [apply I; now left|exact H].
  - inversion H; subst. apply (iv_union _ l t); [now apply I|assumption].
Qed.
Lemma ann_inv t ms v : is_value (mk_ann t ms) v -> is_value t v.
Proof.
  unfold mk_ann. destruct ms as [|m ms]; [auto|]. destruct t; intros H; inversion H; subst; auto. constructor; [assumption|]. apply Forall_app in H4. apply H4.
Qed.
Lemma remove_first_incl l : incl (remove_first l) l.
Proof. induction l as [|x l IH]; cbn; [intros a []|]. destruct (is_default_tag x); [intros a I; now right|]. intros a [<-|I]; [now left|right; auto]. Qed.
Lemma value_drop t v : (forall u ms, t <> YAnn u ms) -> is_value (drop_default t) v -> is_value t v.
Proof.
  intros N H. unfold drop_default in H. destruct (is_union t && _) eqn:E; [|exact H]. destruct t; try discriminate E; [exfalso; eapply N; reflexivity|].
  eapply value_mk_union; [exact H|]. apply remove_first_incl.
Qed.
Lemma tags_obeyed ms v : Forall (fun m => obeys m v) (filter (fun m => negb (is_constraint m)) ms) -> Forall (fun m => obeys m v) ms.
Proof.
  intros F. rewrite Forall_forall in *. intros m I. destruct (is_constraint m) eqn:C; [|apply F, filter_In; split; [exact I|now rewrite C]].
  apply ob_tag. destruct m; try discriminate C; cbn; tauto.
Qed.
Lemma value_field t v : unnested t -> is_value (p_plain (field_properties t)) v -> Forall (fun m => obeys m v) (p_meta (field_properties t)) -> is_value t v.
Proof.
  intros U H F. unfold field_properties in *. cbn [p_plain p_meta] in *. apply tags_obeyed in F.
  set (p1 := drop_default (unwrap t)) in *. set (p2 := if is_optional p1 then unwrap_optional p1 else p1) in *.
  apply Forall_app in F as [F1 F2]. apply value_unwrap; [|exact F1]. apply value_drop; [intros u ms E; destruct t; try discriminate E; cbn in E; subst; exact U|].
  fold p1. assert (H2 : is_value p2 v) by now apply value_unwrap. unfold p2 in H2. destruct (is_optional p1) eqn:O; [|exact H2].
  unfold is_optional in O. unfold unwrap_optional in H2.
  assert (Q : Forall (fun m => obeys m v) (metadata p1)).
  { unfold p2, unwrap_optional in F2. destruct (unwrap p1) eqn:W; try discriminate. clear - F2 H2.
    destruct (metadata p1) as [|m ms]; [constructor|]. unfold mk_ann in F2. destruct (mk_union _); cbn in F2; auto. apply Forall_app in F2. apply F2. }
  destruct (unwrap p1) as [| | | | | | | | | | | | | | | | | | | |l| | |] eqn:W; try discriminate. apply ann_inv in H2. apply value_unwrap; [|exact Q].
  rewrite W. eapply value_mk_union; [exact H2|]. intros x I. apply filter_In in I. apply I.
Qed.

(** ** Field types are stable *)
Lemma no_tags ms : filter (fun m => negb (is_constraint m)) (filter (fun m => negb (is_constraint m)) ms) = filter (fun m => negb (is_constraint m)) ms.
Proof. induction ms as [|m ms IH]; [reflexivity|]. cbn. destruct (is_constraint m) eqn:C; cbn; [exact IH|]. rewrite C. cbn. now rewrite IH. Qed.
Lemma no_tag_in tag ms : is_constraint tag = true -> existsb (meta_eqb tag) (filter (fun m => negb (is_constraint m)) ms) = false.
Proof.
  intros C. destruct (existsb _ _) eqn:E; [|reflexivity]. apply existsb_exists in E as (m & I & Q). apply meta_eqb_eq in Q. subst m. apply filter_In in I as [_ I]. rewrite C in I. discriminate.
Qed.
Lemma stable_field t : settled (p_plain (field_properties t)) ->
  field_properties (field_type (field_properties t)) = FP (p_plain (field_properties t)) false (p_meta (field_properties t)) false false false.
Proof.
  set (p := field_properties t). intros S.
  assert (M : exists ms, p_meta p = filter (fun m => negb (is_constraint m)) ms) by (unfold p, field_properties; cbn; eauto). destruct M as (ms & M).
  assert (U : unwrap (field_type p) = p_plain p).
  { unfold field_type, mk_ann. destruct (p_meta p); destruct (p_plain p); try reflexivity; destruct S. }
  assert (MT : metadata (field_type p) = p_meta p).
  { unfold field_type, mk_ann. destruct (p_meta p); destruct (p_plain p); try reflexivity; destruct S. }
  assert (D : drop_default (p_plain p) = p_plain p).
  { unfold drop_default. destruct (existsb is_default_tag (union_members (p_plain p))) eqn:E; [|now rewrite andb_false_r]. exfalso.
    apply existsb_exists in E as (x & I & X). destruct x; try discriminate X. destruct (p_plain p); cbn in I, S; try contradiction. destruct S as [_ S]. auto. }
  assert (O : is_optional (p_plain p) = false).
  { unfold is_optional. destruct (p_plain p); cbn in S; try reflexivity; try contradiction. cbn. destruct S as [S _]. destruct (existsb is_none l) eqn:E; [|reflexivity]. exfalso. apply existsb_exists in E as (x & I & X). destruct x; try discriminate X. auto. }
  assert (MP : metadata (p_plain p) = []) by (destruct (p_plain p); try reflexivity; destruct S).
  assert (UP : unwrap (p_plain p) = p_plain p) by (destruct (p_plain p); try reflexivity; destruct S).
  unfold field_properties at 1. rewrite U, D, O, MT, MP, app_nil_r, UP, M, no_tags. now rewrite !no_tag_in by reflexivity.
Qed.
Notation sane_type := (sane_type env).
Lemma sane_field t : sane_type t -> sane_type (field_type (field_properties t)).
Proof.
  intros H. destruct H as [t U S F C P K]. constructor; rewrite ?(stable_field t S); cbn [p_plain p_meta]; auto.
  unfold field_type, mk_ann. destruct (p_meta (field_properties t)); destruct (p_plain (field_properties t)); try exact I; destruct S.
Qed.
(** annotations of types other than the scalar ones *)
Lemma sane_other t ms v : Forall (sane ms t) ms -> match t with YInt | YStr | YDecimal | YFloat | YTime | YDatetime => False | _ => True end -> Forall (fun m => obeys m v) ms.
Proof.
  intros F N. rewrite Forall_forall in *. intros m I. specialize (F m I). destruct F; try destruct N. apply ob_other.
Qed.

(** ** References *)
Lemma key_of_class c kt : key_type_of env c = Ok kt -> exists f, key_field env c f /\ kt = field_type (field_properties (f_type f)).
Proof.
  unfold key_type_of. destruct (find _ (fields_of env c)) as [f|] eqn:E; [|discriminate]. intros [= <-]. exists f. split; [|reflexivity].
  unfold fields_of in E. unfold key_field. destruct (env c) as [fs a d ps| |] eqn:EC; try discriminate E.
  assert (X : exists l1 l2, fs = (l1 ++ f :: l2)%list /\ p_primary (field_properties (f_type f)) = true /\ forall g, In g l1 -> p_primary (field_properties (f_type g)) = false).
  { clear EC. induction fs as [|g fs IH]; [discriminate|]. cbn [find] in E. destruct (p_primary (field_properties (f_type g))) eqn:P.
    - injection E as <-. exists [], fs. repeat split; auto. intros ? [].
    - destruct (IH E) as (l1 & l2 & -> & Q & A). exists (g :: l1), l2. repeat split; auto. intros x [<-|I]; auto. }
  destruct X as (l1 & l2 & -> & Q & A). exists l1, l2, a, d, ps. auto.
Qed.
Lemma entity_cls t c : entity_of env t = Some c -> unwrap t = YCls c.
Proof. unfold entity_of, dataclass_of. destruct (unwrap t); try discriminate. destruct (env c0); try discriminate. now destruct (has_key env c0); intros [= <-]. Qed.
Lemma value_field_type t v : sane_type t -> is_value (field_type (field_properties t)) v -> is_value t v.
Proof.
  intros ST H. destruct ST as [t U S _ _ _ _]. set (p := field_properties t) in *. apply value_field; [exact U| |]; fold p.
  - unfold field_type in H. now apply ann_inv in H.
  - unfold field_type, mk_ann in H. destruct (p_meta p) as [|m ms]; [constructor|]. destruct (p_plain p); inversion H; subst; auto. destruct S.
Qed.
Lemma field_flags t : sane_type t -> p_primary (field_properties (field_type (field_properties t))) = false /\ p_nullable (field_properties (field_type (field_properties t))) = false.
Proof. intros ST. destruct ST as [t U S _ _ _ _]. rewrite (stable_field t S). auto. Qed.
Lemma reference_sane t r : sane_type t -> reference_to_key env (field_type (field_properties t)) = Ok r ->
  sane_type r /\ p_primary (field_properties r) = false /\ p_nullable (field_properties r) = false /\ forall v, is_value r v -> is_value t v.
Proof.
  intros ST. assert (SF := sane_field t ST). assert (VT := fun v => value_field_type t v ST). assert (FL := field_flags t ST).
  destruct ST as [t U S F C P K]. set (p := field_properties t) in *. set (ft := field_type p) in *.
  assert (UF : unwrap ft = p_plain p) by (unfold ft, field_type, mk_ann; destruct (p_meta p); destruct (p_plain p); try reflexivity; destruct S).
  assert (MF : metadata ft = p_meta p) by (unfold ft, field_type, mk_ann; destruct (p_meta p); destruct (p_plain p); try reflexivity; destruct S).
  (* a class, directly or as a member of a union *)
  assert (CL : forall c t0, (forall v, is_value (YCls c) v -> is_value t v) -> (forall f, key_field env c f -> sane_type (f_type f)) -> key_type_of env c = Ok t0 ->
     sane_type t0 /\ p_primary (field_properties t0) = false /\ p_nullable (field_properties t0) = false /\ forall v, is_value t0 v -> is_value t v).
  { intros c t0 V KS KT. apply key_of_class in KT as (f & KF & ->). assert (SK := KS f KF). split; [now apply sane_field|]. destruct (field_flags _ SK) as [B1 B2]. split; [exact B1|]. split; [exact B2|].
    intros v IV. apply V. apply (iv_reference env c f); [exact KF|]. now apply value_field_type. }
  intros H. unfold reference_to_key in H.
  assert (EV : (exists c, ft = YFwd c /\ p_plain p = YFwd c /\ evaluate ft = YCls c) \/ evaluate ft = ft).
  { destruct ft eqn:E; try (right; reflexivity). left. exists c. cbn in UF. auto. }
  destruct EV as [(c & E1 & E2 & E3) | E3]; rewrite E3 in H.
  - cbn [unwrap is_optional] in H. unfold required_reference in H. cbn [unwrap] in H.
    assert (SC : sane_type (YCls c)) by (apply C; rewrite E2; constructor).
    assert (VC : forall v, is_value (YCls c) v -> is_value t v) by (intros v IV; apply VT; rewrite E1; now constructor).
    change (is_optional (YCls c)) with false in H. cbn iota in H. destruct (entity_of env (YCls c)) as [c'|] eqn:EN.
    + apply entity_cls in EN. cbn in EN. injection EN as <-. apply (CL c); auto. intros f KF. inversion SC as [? ? ? ? ? ? KC]; subst. apply (KC c f); auto.
    + change (is_union (YCls c)) with false in H. injection H as <-. split; [exact SC|]. repeat split; auto.
  - rewrite UF in H.
    assert (NO : is_optional (p_plain p) = false).
    { unfold is_optional. destruct (p_plain p); cbn in S; try reflexivity; try contradiction. cbn. destruct S as [S _]. destruct (existsb is_none l) eqn:E; [|reflexivity]. exfalso. apply existsb_exists in E as (x & I & X). destruct x; try discriminate X. auto. }
    rewrite NO in H. unfold required_reference in H. rewrite UF in H. destruct (entity_of env (p_plain p)) as [c|] eqn:EN.
    + apply entity_cls in EN. assert (PC : p_plain p = YCls c) by (destruct (p_plain p); cbn in EN; congruence || destruct S).
      apply (CL c); auto; [|intros f; apply K; exact PC].
      intros v IV. apply VT. apply value_unwrap; [rewrite UF, PC; exact IV|]. rewrite MF. eapply sane_other; [exact F|]. now rewrite PC.
    + destruct (is_union (p_plain p)) eqn:IU; [|injection H as <-; split; [exact SF|]; destruct FL; auto].
      destruct (forallb _ _) eqn:FA; [|injection H as <-; split; [exact SF|]; destruct FL; auto].
      destruct (map evaluate _) as [|m ms] eqn:ME; [discriminate|]. destruct (entity_of env m) as [c|] eqn:EM; [|discriminate].
      assert (PU : exists l, p_plain p = YUnion l) by (unfold is_union in IU; destruct (p_plain p); try discriminate IU; [destruct S|eauto]). destruct PU as (l & PU). rewrite PU in ME. cbn in ME.
      assert (MI : exists x, In x l /\ m = evaluate x).
      { destruct (filter _ l) as [|x rr] eqn:FE in ME; [discriminate|]. cbn in ME. injection ME as <- _. exists x. split; [|reflexivity].
        assert (I : In x (filter (fun t => negb (is_none t)) l)) by (rewrite FE; now left). apply filter_In in I. apply I. }
      destruct MI as (x & Ix & ->). assert (SX : sane_type x) by (apply C; rewrite PU; now constructor). apply entity_cls in EM.
      assert (VU : forall v, is_value x v -> is_value t v).
      { intros v IV. apply VT. apply value_unwrap; [rewrite UF, PU; eapply iv_union; eauto|]. rewrite MF. eapply sane_other; [exact F|]. now rewrite PU. }
      destruct x as [| | | | | | | | | | | | | | | | |c0|c0|x0 ms0|l0|x0|x0|l0]; cbn in EM; try discriminate EM.
      * injection EM as ->. apply (CL c); auto. intros f KF. inversion SX as [? ? ? ? ? ? KC]; subst. apply (KC c f); auto.
      * injection EM as ->. apply (CL c); auto; [intros v IV; apply VU; now constructor|]. intros f KF.
        assert (SC : sane_type (YCls c)) by (inversion SX as [? ? ? ? CC ? ?]; subst; apply CC; constructor). inversion SC as [? ? ? ? ? ? KC]; subst. apply (KC c f); auto.
      * subst x0. apply (CL c); auto.
        -- intros v IV. apply VU. constructor; [exact IV|]. inversion SX as [? UX SXX FX ? ? ?]; subst.
           unfold field_properties in FX. cbn in FX. rewrite app_nil_r in FX. apply tags_obeyed. eapply sane_other; [exact FX|]. exact I.
        -- intros f KF. inversion SX as [? ? ? ? ? ? KC]; subst. apply (KC c f); auto.
Qed.
End Values.
