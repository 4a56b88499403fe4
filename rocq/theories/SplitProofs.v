From Verif Require Import PyStr Split.
Open Scope string_scope.

Definition ends_clean (s : string) : Prop := exists p c, s = p ++ str1 c /\ strippable c = false.
Definition inner_eol (s : string) : Prop := exists a b, s = a ++ str1 SEMI ++ str1 LF ++ b.

Lemma rstrip_clean s t : ends_clean s -> (forall a c b, t = a ++ str1 c ++ b -> strippable c = true) -> rstrip (s ++ t) = s.
Proof.
  intros (p & c & -> & Hc) Ht. induction p as [|x p IH].
  - cbn [append str1 rstrip]. assert (G : rstrip t = "").
    { clear Hc c. induction t as [|y t IH]; [reflexivity|]. cbn [rstrip]. rewrite IH; [rewrite (Ht "" y t eq_refl); reflexivity|].
      intros a c b E. apply (Ht (String y a) c b). now rewrite E. }
    now rewrite G, Hc.
  - cbn [append rstrip]. rewrite IH. destruct p; reflexivity.
Qed.
Lemma split_app b r : ~ inner_eol b -> at_eol r = true -> re_split (b ++ str1 SEMI ++ r) = b :: re_split r.
Proof.
  intros N Hr. induction b as [|c b IH].
  - cbn [append str1 re_split]. rewrite Hr. reflexivity.
  - cbn [append re_split]. rewrite IH by (intros (x & y & E); apply N; exists (String c x), y; now rewrite E).
    destruct (Ascii.eqb_spec c SEMI) as [->|]; [|reflexivity]. cbn [andb].
    destruct b as [|y b]; [reflexivity|]. cbn [append at_eol]. destruct (Ascii.eqb_spec y LF) as [->|]; [|reflexivity].
    destruct N. exists "", b. reflexivity.
Qed.
Lemma split_none b : ~ inner_eol b -> (forall p, b <> p ++ str1 SEMI) -> re_split b = [b].
Proof.
  intros N E. induction b as [|c b IH]; [reflexivity|]. cbn [re_split]. rewrite IH.
  - destruct (Ascii.eqb_spec c SEMI) as [->|]; [|reflexivity]. destruct b as [|y b]; [destruct (E "" eq_refl)|]. cbn [at_eol andb]. destruct (Ascii.eqb_spec y LF) as [->|]; [|reflexivity].
    destruct N. exists "", b. reflexivity.
  - intros (x & y & Z). apply N. exists (String c x), y. now rewrite Z.
  - intros p Z. apply (E (String c p)). now rewrite Z.
Qed.
Lemma app_last_inj p q c d : p ++ str1 c = q ++ str1 d -> c = d.
Proof.
  intros H. assert (L : String.length p = String.length q). { apply (f_equal String.length) in H. rewrite !append_length in H. simpl in H. lia. }
  destruct (append_inj_len _ _ _ _ L H) as [_ E]. now injection E.
Qed.
Lemma not_inner_nl b : ~ inner_eol b -> ~ inner_eol (NL ++ b).
Proof. intros N (x & y & E). destruct x as [|c x]; [discriminate E|]. injection E as _ E. apply N. now exists x, y. Qed.

Definition term (x : string) : string := x ++ str1 SEMI.
(** [bodies]: the statements without the terminating semicolon *)
Lemma script_split : forall bodies b, (forall x, In x (bodies ++ [b])%list -> ~ inner_eol x) -> ends_clean b ->
  re_split (rstrip (join_str NL (map term (bodies ++ [b])%list))) =
  match (bodies ++ [b])%list with [] => [] | x :: r => x :: map (append NL) r end.
Proof.
  intros bodies b N C.
  assert (G : forall pre bodies, (forall x, In x bodies -> ~ inner_eol x) -> (pre = "" \/ pre = NL) ->
    rstrip (pre ++ join_str NL (map term (bodies ++ [b])%list)) = pre ++ join_str NL (map term bodies ++ [b])%list /\
    re_split (pre ++ join_str NL (map term bodies ++ [b])%list) = match (bodies ++ [b])%list with [] => [] | x :: r => (pre ++ x) :: map (append NL) r end).
  { intros pre bs. revert pre. induction bs as [|x bs IH]; intros pre Nb Hp.
    - cbn [map app join_str]. unfold term at 1. split.
      + rewrite <- append_assoc. apply rstrip_clean.
        * destruct C as (p & c & -> & Hc). exists (pre ++ p), c. split; [now rewrite append_assoc|exact Hc].
        * intros a c t E. destruct a as [|y a]; [injection E as <- _; reflexivity|]. injection E as _ E. destruct a; discriminate E.
      + apply split_none.
        * assert (Z : ~ inner_eol b) by (apply N, in_app_iff; simpl; auto). destruct Hp as [->| ->]; [exact Z|now apply not_inner_nl].
        * intros p E. destruct C as (q & c & -> & Hc). rewrite <- append_assoc in E. apply app_last_inj in E. subst c. discriminate Hc.
    - destruct (IH NL (fun y Hy => Nb y (or_intror Hy)) (or_intror eq_refl)) as [R S].
      assert (J : forall l : list string, l <> [] -> join_str NL (term x :: l) = x ++ str1 SEMI ++ NL ++ join_str NL l).
      { intros [|y l] Hl; [now destruct Hl|]. cbn [join_str]. unfold term. now rewrite append_assoc. }
      assert (Q : (map term bs ++ [b])%list <> []) by (destruct bs; discriminate).
      assert (Q' : map term (bs ++ [b])%list <> []) by (destruct bs; discriminate).
      cbn [map app]. rewrite (J _ Q), (J _ Q'). split.
      + assert (P : forall p s, s <> "" -> rstrip s = s -> rstrip (p ++ s) = p ++ s).
        { clear. induction p as [|c p IH]; intros s Hs H; [exact H|]. cbn [append rstrip]. rewrite (IH s Hs H). destruct p; [destruct s; [now destruct Hs|reflexivity]|reflexivity]. }
        assert (R2 : forall p s t, t <> "" -> rstrip s = t -> rstrip (p ++ s) = p ++ t).
        { clear. induction p as [|c p IH]; intros s t Hs H; [exact H|]. cbn [append rstrip]. rewrite (IH s t Hs H). destruct p; [destruct t; [now destruct Hs|reflexivity]|reflexivity]. }
        rewrite <- !append_assoc. rewrite (append_assoc _ NL), (append_assoc _ NL). apply R2; [discriminate|exact R].
      + rewrite <- append_assoc. rewrite split_app.
        * rewrite S. destruct bs; reflexivity.
        * assert (Z := Nb x (or_introl eq_refl)). destruct Hp as [->| ->]; [exact Z|now apply not_inner_nl].
        * reflexivity. }
  destruct (G "" bodies) as [R S]; [intros x Hx; apply N, in_app_iff; auto|auto|]. cbn [append] in R, S. rewrite R, S. destruct bodies; reflexivity.
Qed.

(** the loop executes a prefix *)
Lemma each_prefix ok l : exists k, fst (execute_each ok l) = firstn k l /\ (snd (execute_each ok l) = true -> fst (execute_each ok l) = l).
Proof.
  induction l as [|s l [k [H1 H2]]]; [exists 0; auto|]. cbn [execute_each]. destruct (ok s).
  - destruct (execute_each ok l) as [d b]. cbn [fst snd] in *. exists (S k). cbn [firstn]. split; [now rewrite H1|]. intros E. now rewrite H2.
  - exists 0. split; [reflexivity|discriminate].
Qed.
