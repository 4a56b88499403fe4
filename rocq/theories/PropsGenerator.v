(** C45: random data. *)
From Verif Require Import PyStr QuoteModel Types Objects Convert ConvertSpec ConvertProofs CloseSpec CloseProofs1 Reverse Generator GeneratorSpec GeneratorProofs GeneratorTotal.
From Coq Require Import Permutation Lia.
Open Scope string_scope.

Lemma in_firstn {A} n (l : list A) x : In x (firstn n l) -> In x l.
Proof. intros I. rewrite <- (firstn_skipn n l). apply in_or_app. now left. Qed.

Section Create.
Context (env : cid -> classdef) (src : nat -> N) (now : nat -> Z) (keys : list Z).
Lemma find_none_tag ms (q : meta -> bool) : find q ms = None -> forall m, In m ms -> q m = false.
Proof. intros H m I. now apply (find_none q ms). Qed.
Lemma scalar_values t ms g i v j : Forall (sane ms t) ms -> scalar_generator env src now t ms = Some g -> g i = Ok (v, j) ->
  is_value env t v /\ Forall (fun m => obeys m v) ms.
Proof.
  intros F G H. destruct t; cbn [scalar_generator] in G; try discriminate G; try (injection G as <-).
  - apply rbind_ok in H as (b & k & _ & H). apply ret_inv in H as [<- <-]. split; [constructor|]. now apply (sane_other YBool).
  - assert (X : exists z, v = GvInt z /\ match find_range ms with Some (a, b) => (a <= z <= b)%Z | None => True end).
    { destruct (find_range ms) as [[a b]|]; apply rbind_ok in H as (z & k & H1 & H2); apply ret_inv in H2 as [<- <-]; apply randint_ok in H1; eauto. }
    destruct X as (z & -> & X). split; [constructor|]. rewrite Forall_forall in *. intros m I.
    assert (RNG : forall lo hi, In (MRange lo hi) ms -> (forall a b, In (MRange a b) ms -> a = lo /\ b = hi) -> (lo <= z <= hi)%Z).
    { intros lo hi J ONE. unfold find_range in X. destruct (find _ ms) as [m'|] eqn:FM.
      - apply find_some in FM as [I' Q]. destruct m'; try discriminate Q. destruct (ONE _ _ I') as [-> ->]. exact X.
      - pose proof (find_none _ _ FM _ J) as N. discriminate N. }
    specialize (F m I). inversion F as [lo hi ONE E1|E1|lo hi J ONE B E1|w lo hi J ONE B1 B2 E1| | | | | | | |t0 c E1]; subst.
    + constructor. now apply RNG.
    + constructor.
    + constructor. specialize (RNG lo hi J ONE). lia.
    + constructor. specialize (RNG lo hi J ONE). lia.
    + constructor.
  - apply rbind_ok in H as (n & k & _ & H). apply ret_inv in H as [<- <-]. split; [constructor|]. rewrite Forall_forall in *. intros m I. specialize (F m I). inversion F; subst; constructor.
  - unfold random_text in H. apply rbind_ok in H as (n & k & H1 & H). apply rbind_ok in H as (l & k' & H2 & H). apply ret_inv in H as [<- <-]. split; [constructor|].
    apply randint_ok in H1. apply choices_ok in H2 as [L _]. rewrite Forall_forall in *. intros m I. specialize (F m I).
    inversion F as [ | | | |x NN ONE E1|x ONE E1| | | | | |t0 c E1]; subst; try (apply ob_other).
    + constructor. rewrite alphanumeric_length, L. unfold find_max in H1. destruct (find (fun m => match m with MMaxLength _ => true | _ => false end) ms) as [m'|] eqn:FM.
      * apply find_some in FM as [I' Q]. destruct m'; try discriminate Q. rewrite (ONE _ I') in H1. cbn in H1. lia.
      * pose proof (find_none _ _ FM _ I) as N. discriminate N.
    + constructor. rewrite alphanumeric_length, L. unfold find_min in H1. destruct (find (fun m => match m with MMinLength _ => true | _ => false end) ms) as [m'|] eqn:FM.
      * apply find_some in FM as [I' Q]. destruct m'; try discriminate Q. rewrite (ONE _ I') in H1. cbn in H1. lia.
      * pose proof (find_none _ _ FM _ I) as N. discriminate N.
  - destruct (default_to _ _) as [p s] eqn:PS in H. unfold random_decimal in H. apply rbind_ok in H as (a & k & H1 & H). apply rbind_ok in H as (b & k' & H2 & H).
    apply choices_ok in H1 as [L1 D1]. apply choices_ok in H2 as [L2 D2].
    assert (V : v = GvDecimal (number (a ++ b)) (length b)) by (destruct (a ++ b)%list; [discriminate|]; now apply ret_inv in H as [<- <-]). subst v.
    split; [constructor|]. rewrite Forall_forall in *. intros m I. specialize (F m I).
    inversion F as [ | | | | | |x d ONE B E1| | | | |t0 c E1]; subst; [|apply ob_other].
    unfold find_precision in PS. destruct (find (fun m => match m with MPrecision _ _ => true | _ => false end) ms) as [m'|] eqn:FM; [|pose proof (find_none _ _ FM _ I) as N; discriminate N].
    apply find_some in FM as [I' Q]. destruct m'; try discriminate Q. destruct (ONE _ _ I') as [-> ->]. cbn in PS. injection PS as <- <-.
    constructor; [lia|]. eapply N.lt_le_trans; [apply number_bound; rewrite Forall_forall; intros y Y; apply in_app_or in Y as [Y|Y]; auto|].
    rewrite app_length, L1, L2. apply N.pow_le_mono_r; lia.
  - unfold random_datetime in H. apply rbind_ok in H as (n & k & _ & H). apply ret_inv in H as [<- <-]. split; [constructor|]. rewrite Forall_forall in *. intros m I. specialize (F m I). inversion F; subst; constructor.
  - unfold random_date in H. apply rbind_ok in H as (n & k & _ & H). apply ret_inv in H as [<- <-]. split; [constructor|]. now apply (sane_other YDate).
  - unfold random_time in H. apply rbind_ok in H as (n & k & H1 & H). apply ret_inv in H as [<- <-]. apply randrange_ok in H1. split; [constructor; lia|]. rewrite Forall_forall in *. intros m I. specialize (F m I). inversion F; subst; constructor.
  - apply rbind_ok in H as (n & k & _ & H). apply ret_inv in H as [<- <-]. split; [constructor|]. now apply (sane_other YUuid).
  - apply rbind_ok in H as (n & k & H1 & H). apply ret_inv in H as [<- <-]. apply below_ok in H1 as [H1 _]. split; [constructor; exact H1|]. now apply (sane_other YIPv4).
  - apply rbind_ok in H as (n & k & H1 & H). apply rbind_ok in H as (n' & k' & H2 & H). apply ret_inv in H as [<- <-]. apply below_ok in H1 as [H1 _]. apply below_ok in H2 as [H2 _].
    split; [constructor; lia|]. now apply (sane_other YIPv6).
  - destruct (env c) eqn:EC; try discriminate G. injection G as <-. apply rbind_ok in H as (e & k & H1 & H). apply ret_inv in H as [<- <-]. apply choice_ok in H1. split; [econstructor; eauto|]. now apply (sane_other (YCls c)).
  - assert (X : exists u, v = GvLiteral u /\ In u l).
    { destruct l as [|u [|w r]]; [|apply ret_inv in H as [<- <-]; exists u; split; [reflexivity|now left]|];
        apply rbind_ok in H as (e & k & H1 & H); apply ret_inv in H as [<- <-]; apply choice_ok in H1; eauto. }
    destruct X as (u & -> & I). split; [now constructor|]. now apply (sane_other (YLiteral l)).
Qed.

Lemma plain_value t v : sane_type env t -> is_value env (p_plain (field_properties t)) v -> Forall (fun m => obeys m v) (p_meta (field_properties t)) -> is_value env t v.
Proof. intros ST. destruct ST as [t U _ _ _ _ _]. now apply value_field. Qed.
Lemma keyless_of c fs a d ps : env c = KData fs a d ps -> has_key env c = false -> keyless env c.
Proof.
  intros E H f I M. unfold has_key in H. rewrite <- not_true_iff_false in H. apply H. apply existsb_exists. exists f. split; [exact I|]. unfold is_primary_key_type. apply existsb_exists. exists MPrimary. split; [exact M|]. now apply meta_eqb_eq.
Qed.
Lemma repeat_values (x : R gval) n i l j (Q : gval -> Prop) : (forall i v j, x i = Ok (v, j) -> Q v) -> seq_all (repeat x n) i = Ok (l, j) -> Forall Q l.
Proof.
  intros X H. apply seq_all_ok in H. revert l H. induction n as [|n IH]; intros l H; inversion H; subst; constructor; auto. destruct H2 as (a & b & H2). eauto.
Qed.
Lemma create_values fuel : forall t g, sane_type env t -> p_primary (field_properties t) = false -> create env src now keys fuel t = Ok g ->
  forall k i v j, g k i = Ok (v, j) -> is_value env t v.
Proof.
  induction fuel as [|n IH]; intros t g ST NP H k i v j G; [discriminate|]. cbn [create] in H. apply bind_inv in H as (r & RT & H). rewrite NP in H.
  destruct (reference_sane env t r ST RT) as (SR & RP & RN & RV). rewrite RN in H. apply RV. clear RV RT ST NP t.
  assert (PV := fun v => plain_value r v SR). destruct SR as [r U S F C P K].
  destruct (scalar_generator env src now (p_plain (field_properties r)) (p_meta (field_properties r))) as [sg|] eqn:SG.
  - injection H as <-. destruct (scalar_values _ _ _ _ _ _ F SG G). now apply PV.
  - assert (OTH : match p_plain (field_properties r) with YUnion _ | YCls _ | YList _ | YSet _ => True | _ => False end -> Forall (fun m => obeys m v) (p_meta (field_properties r))).
    { intros X. eapply sane_other; [exact F|]. destruct (p_plain (field_properties r)); try exact I; destruct X. }
    destruct (p_plain (field_properties r)) as [| | | | | | | | | | | | | | | | |c|c|u ms|l|e|e|l] eqn:PP; try discriminate H.
    + destruct (env c) as [fs a d ps| |] eqn:EC; try discriminate H. destruct (has_key env c) eqn:HK; [discriminate|]. assert (KL := keyless_of _ _ _ _ _ EC HK).
      apply bind_inv in H as (gs & GS & H). injection H as <-. apply rbind_ok in G as (o & q & G1 & G2). apply ret_inv in G2 as [<- <-]. apply PV; [|now apply OTH].
      eapply iv_struct; [exact EC|exact KL|]. apply map_res_all2 in GS. apply seq_all_ok in G1.
      assert (CS : forall f, In f fs -> sane_type env (f_type f) /\ p_primary (field_properties (f_type f)) = false).
      { intros f I. split; [apply C|apply P]; econstructor; eauto. }
      clear - GS G1 CS IH. revert o G1. induction GS as [|f g fs gs H GS IH2]; intros o G1; inversion G1 as [|? p ? o' (i & j & X) Y E1 E2]; subst; [constructor|].
      apply bind_inv in H as (h & CH & H). injection H as <-. cbn [fst snd] in X. apply rbind_ok in X as (w & m & X1 & X2). apply ret_inv in X2 as [<- <-]. constructor.
      * split; [reflexivity|]. cbn [snd]. destruct (CS f (or_introl eq_refl)) as [A B]. exact (IH _ _ A B CH _ _ _ _ X1).
      * apply IH2; auto. intros x I. apply CS. now right.
    + destruct (is_union (YUnion l)); [|discriminate]. apply bind_inv in H as (gs & GS & H). injection H as <-. apply rbind_ok in G as (g & q & G1 & G2). apply choice_ok in G1.
      apply PV; [|now apply OTH]. apply map_res_all2 in GS.
      assert (X : exists u, In u l /\ create env src now keys n u = Ok g).
      { clear - GS G1. induction GS as [|u h l gs H GS IH]; [destruct G1|]. destruct G1 as [-> | G1]; [exists u; split; [now left|exact H]|]. destruct (IH G1) as (x & I & E). exists x. split; [now right|exact E]. }
      destruct X as (u & Iu & CU). apply (iv_union env l u); [exact Iu|]. eapply IH; [apply C|apply P|exact CU|exact G2]; now constructor.
    + apply PV; [|now apply OTH]. destruct (is_type_enum env e) eqn:TE.
      * destruct e; try discriminate H. destruct (env c) as [|es|] eqn:EC; try discriminate H. injection H as <-. unfold random_enum_list in G. apply rbind_ok in G as (sh & q & G1 & G2). apply rbind_ok in G2 as (m & q' & _ & G2). apply ret_inv in G2 as [<- <-].
        apply shuffle_perm in G1. constructor. rewrite Forall_map. rewrite Forall_forall. intros x I. apply (iv_enum env c es); [exact EC|]. apply (Permutation_in _ G1). exact (in_firstn _ _ _ I).
      * apply bind_inv in H as (g' & CE & H). injection H as <-. apply rbind_ok in G as (m & q & _ & G). apply rbind_ok in G as (xs & q' & G1 & G2). apply ret_inv in G2 as [<- <-].
        constructor. eapply repeat_values; [|exact G1]. intros i0 v0 j0 X. eapply IH; [apply C|apply P|exact CE|exact X]; constructor.
    + apply PV; [|now apply OTH]. destruct (is_type_enum env e) eqn:TE.
      * destruct e; try discriminate H. destruct (env c) as [|es|] eqn:EC; try discriminate H. injection H as <-. unfold random_enum_list in G. apply rbind_ok in G as (sh & q & G1 & G2). apply rbind_ok in G2 as (m & q' & _ & G2). apply ret_inv in G2 as [<- <-].
        apply shuffle_perm in G1. constructor. rewrite Forall_map. rewrite Forall_forall. intros x I. apply (iv_enum env c es); [exact EC|]. apply (Permutation_in _ G1). exact (in_firstn _ _ _ I).
      * apply bind_inv in H as (g' & CE & H). injection H as <-. apply rbind_ok in G as (m & q & _ & G). apply rbind_ok in G as (xs & q' & G1 & G2). apply ret_inv in G2 as [<- <-].
        constructor. eapply repeat_values; [|exact G1]. intros i0 v0 j0 X. eapply IH; [apply C|apply P|exact CE|exact X]; constructor.
Qed.
End Create.

(** ** Objects *)
Definition declared_value (env : cid -> classdef) (f : dfield) (p : string * gval) : Prop :=
  fst p = f_name f /\ (sane_type env (f_type f) -> p_primary (field_properties (f_type f)) = false -> is_value env (f_type f) (snd p)).
(** Whatever the random choices and the clock: as many objects as asked for are made, each has a value for each field, and the
    value is one that the declared type admits, within the declared bounds. *)
Theorem C45_values_within_bounds_partial env src now fuel c count objs :
  random_objects env src now fuel c count = Ok objs ->
  length objs = Z.to_nat count /\ Forall (fun o => Forall2 (declared_value env) (fields_of env c) o) objs.
Proof.
  unfold random_objects. intros H. destruct (shuffle src (range_list count) 0%nat) as [[keys i]|] eqn:SH; [|discriminate]. apply bind_inv in H as (gs & GS & H).
  destruct (seq_all _ i) as [[l j]|] eqn:SA in H; [|discriminate]. injection H as <-. apply seq_all_ok in SA. split.
  - rewrite <- (Forall2_len _ _ _ SA), map_length, seq_length. reflexivity.
  - apply map_res_all2 in GS. remember (map _ (seq 0 (Z.to_nat count))) as xs eqn:XS.
    assert (X : forall x, In x xs -> exists k, x = seq_all (map (fun p => rbind (snd p k) (fun v => ret (fst p, v))) gs)) by (intros x I; subst xs; apply in_map_iff in I as (k & <- & _); eauto). clear XS.
    induction SA as [|x o xs l (i' & j' & E) SA IH]; constructor; [|apply IH; intros y Y; apply X; now right].
    destruct (X x (or_introl eq_refl)) as (k & ->). apply seq_all_ok in E. clear - GS E. revert o E.
    induction GS as [|f g fs gs H GS IH]; intros o E; inversion E as [|? p ? o' (i & j & Q) Y E1 E2]; subst; constructor; [|auto].
    apply bind_inv in H as (h & CH & H). injection H as <-. cbn [fst snd] in Q. apply rbind_ok in Q as (w & m & Q1 & Q2). apply ret_inv in Q2 as [<- <-].
    split; [reflexivity|]. intros ST NP. eapply create_values; eauto.
Qed.
Print Assumptions C45_values_within_bounds_partial.

(** Dates and times are between 1982-10-23 02:30 and the clock at some time of the generation. *)
Definition declared_moment (now : nat -> Z) (f : dfield) (p : string * gval) : Prop :=
  (f_type f = YDatetime -> exists s i, snd p = GvDatetime s /\ (404188200 <= s < now i)%Z) /\
  (f_type f = YDate -> exists d i, snd p = GvDate d /\ (4678 <= d < now i / 86400)%Z).
Theorem C45_dates_between : forall env src now fuel c count objs,
  random_objects env src now fuel c count = Ok objs -> Forall (fun o => Forall2 (declared_moment now) (fields_of env c) o) objs.
Proof.
  intros env src now fuel c count objs. unfold random_objects. intros H. destruct (shuffle src (range_list count) 0%nat) as [[keys i]|] eqn:SH; [|discriminate]. apply bind_inv in H as (gs & GS & H).
  destruct (seq_all _ i) as [[l j]|] eqn:SA in H; [|discriminate]. injection H as <-. apply seq_all_ok in SA.
  apply map_res_all2 in GS. remember (map _ (seq 0 (Z.to_nat count))) as xs eqn:XS.
  assert (X : forall x, In x xs -> exists k, x = seq_all (map (fun p => rbind (snd p k) (fun v => ret (fst p, v))) gs)) by (intros x I; subst xs; apply in_map_iff in I as (k & <- & _); eauto). clear XS.
  induction SA as [|x o xs l (i' & j' & E) SA IH]; constructor; [|apply IH; intros y Y; apply X; now right].
  destruct (X x (or_introl eq_refl)) as (k & ->). apply seq_all_ok in E. clear - GS E. revert o E.
  induction GS as [|f g fs gs H GS IH]; intros o E; inversion E as [|? p ? o' (i & j & Q) Y E1 E2]; subst; constructor; [|auto].
  apply bind_inv in H as (h & CH & H). injection H as <-. cbn [fst snd] in Q. apply rbind_ok in Q as (w & m & Q1 & Q2). apply ret_inv in Q2 as [<- <-]. cbn [snd].
  split; intros T; cbn [snd]; rewrite T in CH; (destruct fuel as [|n]; [discriminate|]); cbn in CH; injection CH as <-.
  - unfold random_datetime in Q1. apply rbind_ok in Q1 as (z & k' & R1 & R2). apply ret_inv in R2 as [<- <-]. apply randrange_ok in R1. unfold start_seconds in *. exists (404188200 + z)%Z, i. split; [reflexivity|lia].
  - unfold random_date in Q1. apply rbind_ok in Q1 as (z & k' & R1 & R2). apply ret_inv in R2 as [<- <-]. apply randrange_ok in R1. unfold start_day in *. exists (4678 + z)%Z, i. split; [reflexivity|lia].
Qed.
Print Assumptions C45_dates_between.

(** ** Keys *)
Lemma int_key_generator env src now keys fuel ms g : In MPrimary ms -> create env src now keys fuel (YAnn YInt ms) = Ok g ->
  g = fun k => match nth_error keys k with Some z => ret (GvInt z) | None => fail "IndexError" end.
Proof.
  intros I H. destruct fuel as [|n]; [discriminate|]. cbn [create] in H. set (fp := field_properties (YAnn YInt ms)) in *.
  assert (P : p_primary fp = true).
  { unfold fp, field_properties. cbn. apply existsb_exists. exists MPrimary. split; [|reflexivity]. rewrite app_nil_r. exact I. }
  assert (F : exists m, field_type fp = YInt \/ field_type fp = YAnn YInt m).
  { exists (p_meta fp). unfold field_type, mk_ann. change (p_plain fp) with YInt. destruct (p_meta fp); auto. }
  clearbody fp. destruct F as (m & [F|F]); rewrite F in H; cbn in H; rewrite P in H; injection H as <-; reflexivity.
Qed.
Lemma seq_seq_all {A B} (f : A -> R B) l : forall i r j, seq_all (map f l) i = Ok (r, j) -> Forall2 (fun a b => exists i j, f a i = Ok (b, j)) l r.
Proof.
  induction l as [|a l IH]; intros i r j H; cbn [map seq_all] in H; [apply ret_inv in H as [<- _]; constructor|].
  apply rbind_ok in H as (b & k & H1 & H). apply rbind_ok in H as (bs & k' & H2 & H). apply ret_inv in H as [<- _]. constructor; eauto.
Qed.
Lemma Forall2_nth {A B} (P : A -> B -> Prop) l m n a : Forall2 P l m -> nth_error l n = Some a -> exists b, nth_error m n = Some b /\ P a b.
Proof.
  intros F. revert n. induction F as [|x y l m H F IH]; intros [|n] E; cbn in *; try discriminate; [injection E as <-; eauto|auto].
Qed.
(** the n-th field of each object *)
Definition field_values (n : nat) (objs : list (list (string * gval))) : list (option (string * gval)) := map (fun o => nth_error o n) objs.
(** Whatever the random choices: the values of an integer primary key are the numbers from zero to the count of objects, each once. *)
Theorem C45_integer_keys_distinct env src now fuel c count objs n f ms :
  random_objects env src now fuel c count = Ok objs ->
  nth_error (fields_of env c) n = Some f -> f_type f = YAnn YInt ms -> In MPrimary ms ->
  Permutation (field_values n objs) (map (fun k => Some (f_name f, GvInt (Z.of_nat k))) (seq 0 (Z.to_nat count))) /\ NoDup (field_values n objs).
Proof.
  intros H NF TF PK. unfold random_objects in H. destruct (shuffle src (range_list count) 0%nat) as [[keys i]|] eqn:SH; [|discriminate]. apply bind_inv in H as (gs & GS & H).
  destruct (seq_all _ i) as [[l j]|] eqn:SA in H; [|discriminate]. injection H as <-. apply seq_seq_all in SA. apply map_res_all2 in GS. apply shuffle_perm in SH.
  destruct (Forall2_nth _ _ _ _ _ GS NF) as ([nm g] & NG & Hg). apply bind_inv in Hg as (h & CH & Hg). injection Hg as <- <-. rewrite TF in CH. apply int_key_generator in CH; [|exact PK]. subst h.
  assert (V : Forall2 (fun k o => exists z, nth_error keys k = Some z /\ nth_error o n = Some (f_name f, GvInt z)) (seq 0 (Z.to_nat count)) l).
  { clear - SA NG. induction SA as [|k o ks os (i & j & E) SA IH]; constructor; [|exact IH]. apply seq_seq_all in E. destruct (Forall2_nth _ _ _ _ _ E NG) as (p & NP & (i' & j' & E')).
    apply rbind_ok in E' as (v & q & E1 & E2). apply ret_inv in E2 as [<- _]. cbn [fst snd] in *. destruct (nth_error keys k) as [z|] eqn:K; [|discriminate]. apply ret_inv in E1 as [<- _]. eauto. }
  assert (L : length keys = Z.to_nat count) by (rewrite (Permutation_length SH); unfold range_list; now rewrite map_length, seq_length).
  assert (X : field_values n l = map (fun z => Some (f_name f, GvInt z)) keys).
  { clear - V L. rewrite <- L in V. clear L. change keys with ([] ++ keys)%list in V at 1. set (pre := @nil Z) in V. change 0%nat with (length pre) in V. clearbody pre. revert l pre V.
    induction keys as [|z keys IH]; intros l pre V; cbn [length seq] in V; inversion V as [|k o ks os (z' & K & O) V' E1 E2]; subst; [reflexivity|]. cbn. rewrite O. f_equal.
    - rewrite nth_error_app2, Nat.sub_diag in K by lia. cbn in K. now injection K as <-.
    - apply (IH os (pre ++ [z])%list). rewrite app_length. cbn. rewrite Nat.add_1_r. rewrite <- app_assoc. exact V'. }
  rewrite X. assert (PP : Permutation (map (fun z => Some (f_name f, GvInt z)) keys) (map (fun k => Some (f_name f, GvInt (Z.of_nat k))) (seq 0 (Z.to_nat count)))).
  { eapply Permutation_trans; [apply Permutation_map; exact SH|]. unfold range_list. rewrite map_map. apply Permutation_refl. }
  split; [exact PP|]. apply (Permutation_NoDup (Permutation_sym PP)). apply FinFun.Injective_map_NoDup; [|apply seq_NoDup]. intros a b E. injection E as E. lia.
Qed.
Print Assumptions C45_integer_keys_distinct.

(** ** UUID keys *)
Definition mono {A} (x : R A) : Prop := forall i v j, x i = Ok (v, j) -> (i <= j)%nat.
Lemma ret_mono {A} (a : A) : mono (ret a).
Proof. intros i v j H. apply ret_inv in H as [_ <-]. lia. Qed.
Lemma fail_mono {A} e : mono (@fail A e).
Proof. intros i v j H. discriminate. Qed.
Lemma rbind_mono {A B} (x : R A) (f : A -> R B) : mono x -> (forall a, mono (f a)) -> mono (rbind x f).
Proof. intros X F i v j H. apply rbind_ok in H as (a & k & H1 & H2). apply X in H1. apply F in H2. lia. Qed.
Lemma seq_all_mono {A} (l : list (R A)) : (forall x, In x l -> mono x) -> mono (seq_all l).
Proof.
  induction l as [|x l IH]; intros F; cbn [seq_all]; [apply ret_mono|]. apply rbind_mono; [apply F; now left|]. intros a. apply rbind_mono; [apply IH; intros y I; apply F; now right|]. intros. apply ret_mono.
Qed.
Section Mono.
Context (env : cid -> classdef) (src : nat -> N) (now : nat -> Z) (keys : list Z).
Lemma below_mono n : mono (below src n).
Proof. intros i v j H. apply below_ok in H as [_ ->]. lia. Qed.
Lemma choice_mono {A} (l : list A) : mono (choice src l).
Proof.
  unfold choice. apply rbind_mono; [destruct l; [apply fail_mono|apply below_mono]|]. intros n. destruct (nth_error l (N.to_nat n)); [apply ret_mono|apply fail_mono].
Qed.
Lemma randint_mono a b : mono (randint src a b).
Proof. unfold randint. destruct (Z.ltb b a); [apply fail_mono|]. apply rbind_mono; [apply below_mono|intros; apply ret_mono]. Qed.
Lemma randrange_mono n : mono (randrange src n).
Proof. unfold randrange. destruct (Z.leb n 0); [apply fail_mono|]. apply rbind_mono; [apply below_mono|intros; apply ret_mono]. Qed.
Lemma choices_mono {A} (l : list A) k : mono (choices src l k).
Proof. apply seq_all_mono. intros x I. apply repeat_spec in I. subst. apply choice_mono. Qed.
Lemma shuffle_from_mono {A} n : forall l : list A, mono (shuffle_from src n l).
Proof. induction n as [|n IH]; intros l; cbn [shuffle_from]; [apply ret_mono|]. apply rbind_mono; [apply below_mono|intros; apply IH]. Qed.
Lemma scalar_mono t ms g : scalar_generator env src now t ms = Some g -> mono g.
Proof.
  intros G. destruct t; cbn [scalar_generator] in G; try discriminate G; try (injection G as <-).
  - apply rbind_mono; [|intros; apply ret_mono]. apply rbind_mono; [apply below_mono|intros; apply ret_mono].
  - destruct (find_range ms) as [[a b]|]; (apply rbind_mono; [apply randint_mono|intros; apply ret_mono]).
  - apply rbind_mono; [apply below_mono|intros; apply ret_mono].
  - apply rbind_mono; [apply randint_mono|intros]. apply rbind_mono; [apply choices_mono|intros; apply ret_mono].
  - destruct (default_to _ _) as [p s]. apply rbind_mono; [apply choices_mono|intros a]. apply rbind_mono; [apply choices_mono|intros b]. destruct (a ++ b)%list; [apply fail_mono|apply ret_mono].
  - intros i. unfold random_datetime. apply rbind_mono; [apply randrange_mono|intros; apply ret_mono].
  - intros i. unfold random_date. apply rbind_mono; [apply randrange_mono|intros; apply ret_mono].
  - apply rbind_mono; [apply randrange_mono|intros; apply ret_mono].
  - apply rbind_mono; [apply below_mono|intros; apply ret_mono].
  - apply rbind_mono; [apply below_mono|intros; apply ret_mono].
  - apply rbind_mono; [apply below_mono|intros]. apply rbind_mono; [apply below_mono|intros; apply ret_mono].
  - destruct (env c); try discriminate G. injection G as <-. apply rbind_mono; [apply choice_mono|intros; apply ret_mono].
  - destruct l as [|v [|w r]]; [|apply ret_mono|]; (apply rbind_mono; [apply choice_mono|intros; apply ret_mono]).
Qed.
Lemma enum_list_mono c es : mono (random_enum_list src c es).
Proof. apply rbind_mono; [apply shuffle_from_mono|intros]. apply rbind_mono; [apply randint_mono|intros; apply ret_mono]. Qed.
Lemma repeat_mono (g : R gval) : mono g -> mono (rbind (randint src 0 5) (fun m => rbind (seq_all (repeat g (Z.to_nat m))) (fun l => ret (GvJson (GvList l))))).
Proof. intros G. apply rbind_mono; [apply randint_mono|intros]. apply rbind_mono; [|intros; apply ret_mono]. apply seq_all_mono. intros x I. apply repeat_spec in I. now subst. Qed.
Lemma fields_mono (gs : list (string * generator)) k : (forall p, In p gs -> forall k, mono (snd p k)) -> mono (seq_all (map (fun p => rbind (snd p k) (fun v => ret (fst p, v))) gs)).
Proof. intros H. apply seq_all_mono. intros x I. apply in_map_iff in I as (p & <- & I). apply rbind_mono; [now apply H|intros; apply ret_mono]. Qed.
Lemma create_mono n : forall t g, create env src now keys n t = Ok g -> forall k, mono (g k).
Proof.
  induction n as [|n IH]; intros t g H k; [discriminate|]. rewrite create_eq in H. cbv zeta in H. apply bind_inv in H as (r & _ & H).
  destruct (p_primary (field_properties t)).
  { destruct (p_plain (field_properties r)); try discriminate H; injection H as <-; [destruct (nth_error keys k); [apply ret_mono|apply fail_mono]|]. apply rbind_mono; [apply below_mono|intros; apply ret_mono]. }
  destruct (p_nullable (field_properties r)).
  { apply bind_inv in H as (g' & H1 & H2). injection H2 as <-. apply rbind_mono; [|intros []; [now apply (IH _ _ H1)|apply ret_mono]]. apply rbind_mono; [apply below_mono|intros; apply ret_mono]. }
  unfold body in H. destruct (scalar_generator _ _ _ _ _) as [sg|] eqn:SG; [injection H as <-; eapply scalar_mono; eauto|].
  destruct (p_plain (field_properties r)) as [| | | | | | | | | | | | | | | | |c|c|u ms|l|e|e|l] eqn:PP; try discriminate H.
  - destruct (env c) as [fs a d ps| |] eqn:EC; try discriminate H. destruct (has_key env c); [discriminate|]. apply bind_inv in H as (gs & GS & H). injection H as <-. apply rbind_mono; [|intros; apply ret_mono].
    apply fields_mono. apply map_res_all2 in GS. intros p I. clear - GS I IH. induction GS as [|f q fs gs H GS IH2]; [destruct I|]. destruct I as [<-|I]; [|auto]. apply bind_inv in H as (h & H1 & H2). injection H2 as <-. cbn. now apply (IH _ _ H1).
  - destruct (is_union (YUnion l)); [|discriminate]. apply bind_inv in H as (gs & GS & H). injection H as <-. apply map_res_all2 in GS.
    intros i v j G. apply rbind_ok in G as (h & q & G1 & G2). assert (L := choice_mono _ _ _ _ G1). apply choice_ok in G1.
    assert (X : exists u, create env src now keys n u = Ok h) by (clear - GS G1; induction GS as [|u q l gs H GS IH]; [destruct G1|]; destruct G1 as [<-|G1]; eauto).
    destruct X as (u & X). apply (IH _ _ X) in G2. lia.
  - destruct (is_type_enum env e); [destruct e; try discriminate H; destruct (env c); try discriminate H; injection H as <-; apply enum_list_mono|].
    apply bind_inv in H as (h & H1 & H2). injection H2 as <-. apply repeat_mono. now apply (IH _ _ H1).
  - destruct (is_type_enum env e); [destruct e; try discriminate H; destruct (env c); try discriminate H; injection H as <-; apply enum_list_mono|].
    apply bind_inv in H as (h & H1 & H2). injection H2 as <-. apply repeat_mono. now apply (IH _ _ H1).
Qed.
Lemma uuid_key_generator fuel ms g : In MPrimary ms -> create env src now keys fuel (YAnn YUuid ms) = Ok g -> g = fun _ => rbind (below src (2 ^ 122)) (fun n => ret (GvUuid n)).
Proof.
  intros I H. destruct fuel as [|n]; [discriminate|]. rewrite create_eq in H. cbv zeta in H. set (fp := field_properties (YAnn YUuid ms)) in *.
  assert (P : p_primary fp = true).
  { unfold fp, field_properties. cbn. apply existsb_exists. exists MPrimary. split; [|reflexivity]. rewrite app_nil_r. exact I. }
  assert (F : exists m, field_type fp = YUuid \/ field_type fp = YAnn YUuid m).
  { exists (p_meta fp). unfold field_type, mk_ann. change (p_plain fp) with YUuid. destruct (p_meta fp); auto. }
  clearbody fp. destruct F as (m & [F|F]); rewrite F in H; cbn in H; rewrite P in H; injection H as <-; reflexivity.
Qed.
(** where in a sequence a computation runs *)
Lemma seq_all_places {A B} (f : A -> R B) (l : list A) : (forall a, In a l -> mono (f a)) -> forall i r j, seq_all (map f l) i = Ok (r, j) ->
  Forall2 (fun a b => exists p q, (i <= p)%nat /\ (q <= j)%nat /\ f a p = Ok (b, q)) l r.
Proof.
  induction l as [|a l IH]; intros M i r j H; cbn [map seq_all] in H; [apply ret_inv in H as [<- _]; constructor|].
  apply rbind_ok in H as (b & k & H1 & H). apply rbind_ok in H as (bs & k' & H2 & H). apply ret_inv in H as [<- <-].
  assert (L1 := M a (or_introl eq_refl) _ _ _ H1).
  assert (L2 : (k <= k')%nat) by (eapply seq_all_mono; [|exact H2]; intros x I; apply in_map_iff in I as (y & <- & I); apply M; now right).
  constructor; [exists i, k; auto|]. specialize (IH (fun x I => M x (or_intror I)) _ _ _ H2). clear - IH L1. induction IH as [|x y l r (p & q & P1 & P2 & E) F IH]; constructor; [exists p, q; repeat split; auto; lia|exact IH].
Qed.
Lemma object_key (gs : list (string * generator)) n nm g i o j k : (forall p, In p gs -> forall k, mono (snd p k)) -> seq_all (map (fun p => rbind (snd p k) (fun v => ret (fst p, v))) gs) i = Ok (o, j) ->
  nth_error gs n = Some (nm, g) -> g = (fun _ => rbind (below src (2 ^ 122)) (fun n => ret (GvUuid n))) ->
  exists p, (i <= p < j)%nat /\ nth_error o n = Some (nm, GvUuid (src p mod 2 ^ 122)).
Proof.
  intros M H NG ->. apply seq_all_places in H; [|intros p I; apply rbind_mono; [now apply M|intros; apply ret_mono]].
  destruct (Forall2_nth _ _ _ _ _ H NG) as (b & NB & (p & q & L1 & L2 & E)). exists p. apply rbind_ok in E as (v & w & E1 & E2). apply ret_inv in E2 as [<- <-]. cbn [fst snd] in *.
  apply rbind_ok in E1 as (m & w' & E1 & E2). apply ret_inv in E2 as [<- <-]. unfold below in E1. destruct (N.eqb_spec (2 ^ 122) 0) as [Z|_]; [discriminate Z|].
  assert (X : N.modulo (src p) (2 ^ 122) = m /\ S p = w') by (split; congruence). destruct X as [<- <-]. split; [lia|exact NB].
Qed.
Lemma object_keys (gs : list (string * generator)) n nm ks : (forall p, In p gs -> forall k, mono (snd p k)) -> nth_error gs n = Some (nm, fun _ => rbind (below src (2 ^ 122)) (fun n => ret (GvUuid n))) ->
  forall i l j, seq_all (map (fun k => seq_all (map (fun p => rbind (snd p k) (fun v => ret (fst p, v))) gs)) ks) i = Ok (l, j) ->
  exists ps, Forall (fun p => (i <= p < j)%nat) ps /\ NoDup ps /\ field_values n l = map (fun p => Some (nm, GvUuid (src p mod 2 ^ 122))) ps.
Proof.
  intros M NG. induction ks as [|k ks IH]; intros i l j H; cbn [map seq_all] in H; [apply ret_inv in H as [<- <-]; exists []; repeat split; constructor|].
  apply rbind_ok in H as (o & q & H1 & H). apply rbind_ok in H as (os & q' & H2 & H). apply ret_inv in H as [<- <-]. assert (L := fields_mono gs k M _ _ _ H1).
  assert (L2 : (q <= q')%nat) by (eapply seq_all_mono; [|exact H2]; intros x I; apply in_map_iff in I as (y & <- & _); now apply fields_mono).
  destruct (object_key gs n nm _ i o q k M H1 NG eq_refl) as (p & B & E). destruct (IH _ _ _ H2) as (ps & F & ND & V). exists (p :: ps). rewrite Forall_forall in F. split; [|split].
  - constructor; [lia|]. rewrite Forall_forall. intros x I. apply F in I. lia.
  - constructor; [intros I; apply F in I; lia|exact ND].
  - unfold field_values in *. cbn [map]. rewrite E. f_equal. exact V.
Qed.
End Mono.
(** The values of a primary key that is a UUID are pairwise distinct unless the random source repeats itself. *)
Theorem C45_uuid_keys_distinct env src now fuel c count objs n f ms :
  random_objects env src now fuel c count = Ok objs -> nth_error (fields_of env c) n = Some f -> f_type f = YAnn YUuid ms -> In MPrimary ms ->
  (forall i j, i <> j -> (src i mod 2 ^ 122 <> src j mod 2 ^ 122)%N) ->
  Forall (fun v => exists u, v = Some (f_name f, GvUuid u)) (field_values n objs) /\ NoDup (field_values n objs).
Proof.
  intros H NF TF PK SRC. unfold random_objects in H. destruct (shuffle src (range_list count) 0%nat) as [[keys i]|] eqn:SH; [|discriminate]. apply bind_inv in H as (gs & GS & H).
  destruct (seq_all _ i) as [[l j]|] eqn:SA in H; [|discriminate]. injection H as <-. apply map_res_all2 in GS.
  destruct (Forall2_nth _ _ _ _ _ GS NF) as ([nm g] & NG & Hg). apply bind_inv in Hg as (h & CH & Hg). injection Hg as <- <-. rewrite TF in CH. apply uuid_key_generator in CH; [|exact PK]. subst h.
  assert (M : forall p, In p gs -> forall k, mono (snd p k)).
  { intros p I. clear - GS I. induction GS as [|f q fs gs H GS IH]; [destruct I|]. destruct I as [<-|I]; [|auto]. apply bind_inv in H as (h & H1 & H2). injection H2 as <-. cbn. now apply (create_mono _ _ _ _ _ _ _ H1). }
  destruct (object_keys src gs n (f_name f) _ M NG _ _ _ SA) as (ps & _ & ND & V). rewrite V. split.
  - rewrite Forall_map, Forall_forall. eauto.
  - apply FinFun.Injective_map_NoDup; [|exact ND]. intros a b E. destruct (Nat.eq_dec a b) as [|NE]; [assumption|]. exfalso. apply (SRC a b NE). injection E; auto.
Qed.
Print Assumptions C45_uuid_keys_distinct.

(** ** Generation succeeds *)
(** For a class whose field types are supported, have satisfiable bounds and nest finitely, generation never fails, whatever the random
    choices and for any number of objects; the recursion is as deep as the types nest. *)
Theorem C45_generation_succeeds env src now c count :
  (forall f, In f (fields_of env c) -> makeable env (f_type f)) -> (forall i, 86400 * 4679 <= now i)%Z ->
  exists depth, forall fuel, (depth <= fuel)%nat -> exists objs, random_objects env src now fuel c count = Ok objs.
Proof.
  intros M CLOCK. unfold random_objects. destruct (shuffle_succeeds src (range_list count) 0%nat) as (keys & i & SH). rewrite SH. apply shuffle_perm in SH. assert (L : length keys = Z.to_nat count) by (rewrite (Permutation_length SH); unfold range_list; now rewrite map_length, seq_length).
  destruct (map_res_created (fun n f => do g <- create env src now keys n (f_type f); Ok (f_name f, g)) (fun p => works keys (snd p)) (fields_of env c)) as (n0 & H).
  { intros f I. destruct (makeable_good env src now keys CLOCK _ (M f I)) as ((n1 & X) & _). exists n1. intros n LE. destruct (X n LE) as (g & E & W). rewrite E. cbn. eexists. split; [reflexivity|exact W]. }
  exists n0. intros fuel LE. destruct (H fuel LE) as (gs & E & W & _). rewrite E. cbn [bind].
  assert (X : succeeds (seq_all (map (fun k => seq_all (map (fun p => rbind (snd p k) (fun v => ret (fst p, v))) gs)) (seq 0 (Z.to_nat count))))).
  { apply seq_all_succeeds. intros x I. apply in_map_iff in I as (k & <- & I). apply in_seq in I. apply seq_all_succeeds. intros x J. apply in_map_iff in J as (p & <- & J). rewrite Forall_forall in W.
    apply rbind_succeeds; [apply (W p J); lia|intros; apply ret_succeeds]. }
  destruct (X i) as (l & j & E2). rewrite E2. eauto.
Qed.
Print Assumptions C45_generation_succeeds.

(** ** What is not guaranteed *)
Definition key_t (ms : list meta) : pytype := YAnn YInt (MPrimary :: ms).
Definition company : cid := ("m", "Company").
Definition person : cid := ("m", "Person").
Definition tiny : cid := ("m", "Tiny").
Definition color : cid := ("m", "Color").
Definition address : cid := ("m", "Address").
Definition world (c : cid) : classdef :=
  if cid_eqb c company then KData [Fld "id" (key_t []) DMissing; Fld "name" (YAnn YStr [MUnique; MMaxLength 40]) DMissing] false None []
  else if cid_eqb c person then
    KData [Fld "id" (key_t []) DMissing; Fld "employer" (YCls company) DMissing; Fld "code" (YAnn YStr [MLength 3]) DMissing;
           Fld "age" (YAnn YInt [MRange 0 150; MStorage 2; MSigned true]) DMissing; Fld "pay" (YUnion [YAnn YDecimal [MPrecision 9 2]; YNone]) DMissing;
           Fld "home" (YCls address) DMissing; Fld "colors" (YList (YCls color)) DMissing; Fld "codes" (YSet YInt) DMissing] false None []
  else if cid_eqb c tiny then KData [Fld "id" (key_t [MRange (-128) 127; MStorage 1; MSigned true]) DMissing] false None []
  else if cid_eqb c color then KEnum [EStr "red"; EStr "green"]
  else if cid_eqb c address then KData [Fld "city" (YAnn YStr [MMinLength 2; MMaxLength 30]) DMissing; Fld "post" (YUnion [YInt; YStr]) DMissing] false None []
  else KOther.
(** A reference is a number up to a million chosen at random: it need not be a key of one of the objects generated for the referenced
    table, whatever their count up to a million. *)
Theorem C45_foreign_keys_refuted : exists env src now fuel c d f objs v,
  nth_error (fields_of env c) 1 = Some f /\ f_type f = YCls d /\ random_objects env src now fuel c 1 = Ok objs /\ field_values 1 objs = [Some (f_name f, v)] /\
  forall src' now' fuel' count others, (count <= 1000000)%Z -> random_objects env src' now' fuel' d count = Ok others -> ~ In (Some ("id", v)) (field_values 0 others).
Proof.
  exists world, (fun _ => 1000000%N), (fun _ => 1700000000%Z), 4%nat, person, company. eexists _, _, (GvInt 1000000). split; [reflexivity|]. split; [reflexivity|].
  split; [vm_compute; reflexivity|]. split; [reflexivity|]. intros src' now' fuel' count others L H I.
  destruct (C45_integer_keys_distinct _ _ _ _ _ _ _ 0 (Fld "id" (key_t []) DMissing) [MPrimary] H eq_refl eq_refl (or_introl eq_refl)) as [P _].
  apply (Permutation_in _ P) in I. apply in_map_iff in I as (k & E & I). apply in_seq in I. assert (K : Z.of_nat k = 1000000%Z) by (injection E; auto). lia.
Qed.
Print Assumptions C45_foreign_keys_refuted.
(** Values of a field declared unique may repeat. *)
Theorem C45_unique_refuted : exists env src now fuel c f ms objs v,
  nth_error (fields_of env c) 1 = Some f /\ f_type f = YAnn YStr ms /\ In MUnique ms /\ random_objects env src now fuel c 2 = Ok objs /\ field_values 1 objs = [Some (f_name f, v); Some (f_name f, v)].
Proof.
  exists world, (fun _ => 2%N), (fun _ => 1700000000%Z), 4%nat, company. eexists _, _, _, (GvStr "ccc"). split; [reflexivity|]. split; [reflexivity|]. split; [now left|].
  split; vm_compute; reflexivity.
Qed.
Print Assumptions C45_unique_refuted.
(** The keys ignore the declared range: of more objects than an 8-bit key can number, one has a key outside the range, whatever the random choices. *)
Theorem C45_key_range_refuted : exists env c f lo hi ms, nth_error (fields_of env c) 0 = Some f /\ f_type f = YAnn YInt (MPrimary :: MRange lo hi :: ms) /\
  forall src now fuel count objs, (hi + 1 < count)%Z -> random_objects env src now fuel c count = Ok objs -> exists z, (hi < z)%Z /\ In (Some (f_name f, GvInt z)) (field_values 0 objs).
Proof.
  exists world, tiny. eexists _, _, _, _. split; [reflexivity|]. split; [reflexivity|]. intros src now fuel count objs L H.
  edestruct (C45_integer_keys_distinct world src now fuel tiny count objs 0) as [P _]; [exact H|reflexivity|reflexivity|now left|]. exists 128%Z. split; [lia|].
  apply (Permutation_in _ (Permutation_sym P)). apply in_map_iff. exists 128%nat. split; [reflexivity|]. apply in_seq. lia.
Qed.
Print Assumptions C45_key_range_refuted.
(** A fixed length is ignored; a set may be given the same element twice. *)
Theorem C45_fixed_length_refuted : exists env src now fuel c f g objs s z l,
  nth_error (fields_of env c) 2 = Some f /\ f_type f = YAnn YStr [MLength 3] /\ nth_error (fields_of env c) 7 = Some g /\ f_type g = YSet YInt /\ random_objects env src now fuel c 1 = Ok objs /\
  field_values 2 objs = [Some (f_name f, GvStr s)] /\ String.length s <> 3%nat /\ field_values 7 objs = [Some (f_name g, GvJson (GvList (z :: z :: l)))].
Proof.
  exists world, (fun _ => 4%N), (fun _ => 1700000000%Z), 4%nat, person. eexists _, _, _, "eeeee", (GvInt 4), _. split; [reflexivity|]. split; [reflexivity|]. split; [reflexivity|]. split; [reflexivity|].
  split; [vm_compute; reflexivity|]. split; [reflexivity|]. split; [discriminate|reflexivity].
Qed.
Print Assumptions C45_fixed_length_refuted.

(** ** Examples *)
Lemma no_key_field c : match world c with KData fs _ _ _ => existsb (fun f => p_primary (field_properties (f_type f))) fs = false | _ => True end -> forall f, ~ key_field world c f.
Proof.
  intros H f (l1 & l2 & a & d & ps & E & P & _). rewrite E in H. rewrite existsb_app in H. cbn [existsb] in H. rewrite P in H. cbn [orb] in H. rewrite orb_true_r in H. discriminate.
Qed.
Lemma company_key f : key_field world company f -> f_type f = key_t [].
Proof.
  intros (l1 & l2 & a & d & ps & E & P & A). change (world company) with (KData [Fld "id" (key_t []) DMissing; Fld "name" (YAnn YStr [MUnique; MMaxLength 40]) DMissing] false None []) in E.
  injection E as E _ _. destruct l1 as [|x [|y l1]]; cbn in E; injection E; intros; subst; [reflexivity| |destruct l1; discriminate]. discriminate P.
Qed.
Lemma make_simple t : In (p_plain (field_properties t)) [YBool; YFloat; YUuid] \/ (p_plain (field_properties t) = YInt /\ forall lo hi, In (MRange lo hi) (p_meta (field_properties t)) -> (lo <= hi)%Z) ->
  (p_primary (field_properties t) = true -> p_plain (field_properties t) = YInt \/ p_plain (field_properties t) = YUuid) -> makeable world t.
Proof.
  intros H K. constructor; [|  |exact K| |].
  - destruct H as [[E|[E|[E|[]]]]|[E _]]; first [rewrite <- E|rewrite E]; exact I.
  - destruct H as [[E|[E|[E|[]]]]|[E H]]; [rewrite <- E; apply su_plain; cbn; tauto..|]. rewrite E. now apply su_int.
  - intros u C. destruct H as [[E|[E|[E|[]]]]|[E _]]; first [rewrite <- E in C|rewrite E in C]; inversion C.
  - intros c f Q. destruct H as [[E|[E|[E|[]]]]|[E _]]; congruence.
Qed.
Lemma text_type t lo hi : p_plain (field_properties t) = YStr -> p_primary (field_properties t) = false ->
  (forall n, In (MMinLength n) (p_meta (field_properties t)) -> (n <= lo)%Z) -> (forall n, In (MMaxLength n) (p_meta (field_properties t)) -> (hi <= n)%Z) -> (1 <= lo <= hi)%Z -> (hi <= 255)%Z -> makeable world t.
Proof.
  intros E P MI MA L1 L2. constructor; rewrite ?E; [exact I| |rewrite P; discriminate|intros u C; inversion C|discriminate].
  apply su_str. intros a b [A|[-> _]] [B|[-> _]]; [apply MI in A; apply MA in B; lia|apply MI in A; lia|apply MA in B; lia|lia].
Qed.
Lemma address_fields u : component world (YCls address) u -> u = YAnn YStr [MMinLength 2; MMaxLength 30] \/ u = YUnion [YInt; YStr].
Proof.
  intros C. inversion C as [| | | |? fs a d ps f E KL I]; subst. change (world address) with (KData [Fld "city" (YAnn YStr [MMinLength 2; MMaxLength 30]) DMissing; Fld "post" (YUnion [YInt; YStr]) DMissing] false None []) in E.
  injection E as <- <- <- <-. destruct I as [<-|[<-|[]]]; cbn; auto.
Qed.
Lemma post_makeable : makeable world (YUnion [YInt; YStr]).
Proof.
  constructor; [split; intros [|[|[]]]; discriminate|apply su_union|discriminate| |discriminate]. intros u C. inversion C as [| |? ? I| |]; subst. destruct I as [<-|[<-|[]]].
  - apply make_simple; [right; split; [reflexivity|intros ? ? []]|discriminate].
  - apply (text_type _ 1 255); try reflexivity; cbn; try lia; intros n [].
Qed.
(** All fields of the class can be generated. *)
Example C45_person_makeable : forall f, In f (fields_of world person) -> makeable world (f_type f).
Proof.
  assert (KEY : makeable world (key_t [])) by (apply make_simple; [right; split; [reflexivity|intros ? ? []]|auto]).
  intros f I. repeat (destruct I as [<-|I]); cbn [f_type]; [exact KEY| | | | | | | |destruct I].
  - constructor; [exact I|eapply su_class; reflexivity|discriminate| |].
    + intros u C. inversion C as [| | | |? fs a d ps f E KL In]; subst. exfalso. eapply KL; [now left|]. now left.
    + intros c f Q KF. injection Q as <-. now rewrite (company_key f KF).
  - apply (text_type _ 1 255); try reflexivity; cbn; try lia; intros n [X|[]]; discriminate X.
  - apply make_simple; [right; split; [reflexivity|]|discriminate]. intros lo hi [X|[X|[X|[]]]]; try discriminate X. injection X as <- <-. lia.
  - constructor; [exact I|apply su_decimal; intros p d [X|[]]; injection X as <- <-; lia|discriminate|intros u C; inversion C|discriminate].
  - constructor; [exact I|eapply su_class; reflexivity|discriminate| |].
    + intros u C. apply address_fields in C as [-> | ->]; [|apply post_makeable]. apply (text_type _ 2 30); try reflexivity; cbn; try lia; intros n [X|[X|[]]]; try discriminate X; injection X as <-; lia.
    + intros c f Q KF. injection Q as <-. now apply no_key_field in KF.
  - constructor; [exact I|apply su_list; exact I|discriminate| |discriminate]. intros u C. inversion C; subst. constructor; [exact I|eapply su_enum; reflexivity|discriminate| |].
    + intros u C'. inversion C' as [| | | |? fs a d ps f E KL In]; subst. discriminate E.
    + intros c f Q KF. injection Q as <-. destruct KF as (? & ? & ? & ? & ? & E & _). discriminate E.
  - constructor; [exact I|apply su_set; exact I|discriminate| |discriminate]. intros u C. inversion C; subst. apply make_simple; [right; split; [reflexivity|intros ? ? []]|discriminate].
Qed.
(** The bounds of all fields but the one of fixed length are sane. *)
Lemma sane_leaf t : unnested t -> settled (p_plain (field_properties t)) -> Forall (sane (p_meta (field_properties t)) (p_plain (field_properties t))) (p_meta (field_properties t)) ->
  match p_plain (field_properties t) with YInt | YStr | YDecimal => True | _ => False end -> sane_type world t.
Proof.
  intros U S F L. constructor; auto; intros u; destruct (p_plain (field_properties t)); try destruct L; intros C; inversion C; discriminate.
Qed.
Example C45_person_sane : forall f, In f (fields_of world person) -> f_name f <> "code" -> sane_type world (f_type f).
Proof.
  intros f I N. repeat (destruct I as [<-|I]); cbn [f_type]; [| |exfalso; now apply N| | | | | |destruct I].
  - apply sane_leaf; try exact I. constructor.
  - constructor; [exact I|exact I|constructor| | |].
    + intros u C. inversion C as [| | | |? fs a d ps f E KL In]; subst. exfalso. eapply KL; [now left|]. now left.
    + intros u C. inversion C as [| | | |? fs a d ps f E KL In]; subst. exfalso. eapply KL; [now left|]. now left.
    + intros c f Q KF. injection Q as <-. rewrite (company_key f KF). apply sane_leaf; try exact I. constructor.
  - assert (ONE : forall a b, In (MRange a b) [MRange 0 150; MStorage 2; MSigned true] -> a = 0%Z /\ b = 150%Z) by (intros a b [X|[X|[X|[]]]]; try discriminate X; now injection X).
    apply sane_leaf; try exact I. cbn. constructor; [now apply sn_range|]. constructor; [|constructor; [apply sn_signed|constructor]]. apply (sn_storage _ 2 0 150); auto; [now left|lia|lia].
  - apply sane_leaf; try exact I. cbn. constructor; [|constructor]. apply sn_precision; [intros a b [X|[]]; now injection X|lia].
  - constructor; [exact I|exact I|constructor| | |].
    + intros u C. apply address_fields in C as [-> | ->].
      * apply sane_leaf; try exact I. cbn. constructor; [apply sn_min|constructor; [apply sn_max|constructor]]; try lia; intros a [X|[X|[]]]; try discriminate X; now injection X.
      * constructor; [exact I|split; intros [|[|[]]]; discriminate|constructor| | |discriminate].
        -- intros u C. inversion C as [| |? ? J| |]; subst. destruct J as [<-|[<-|[]]]; apply sane_leaf; try exact I; constructor.
        -- intros u C. inversion C as [| |? ? J| |]; subst. destruct J as [<-|[<-|[]]]; reflexivity.
    + intros u C. apply address_fields in C as [-> | ->]; reflexivity.
    + intros c f Q KF. injection Q as <-. now apply no_key_field in KF.
  - constructor; [exact I|exact I|constructor| | |discriminate].
    + intros u C. inversion C; subst. constructor; [exact I|exact I|constructor| | |].
      * intros u C'. inversion C' as [| | | |? fs a d ps f E KL In]; subst. discriminate E.
      * intros u C'. inversion C' as [| | | |? fs a d ps f E KL In]; subst. discriminate E.
      * intros c f Q KF. injection Q as <-. destruct KF as (? & ? & ? & ? & ? & E & _). discriminate E.
    + intros u C. inversion C; subst. reflexivity.
  - constructor; [exact I|exact I|constructor| | |discriminate].
    + intros u C. inversion C; subst. apply sane_leaf; try exact I. constructor.
    + intros u C. inversion C; subst. reflexivity.
Qed.
Example C45_person_generated : exists objs, random_objects world (fun n => N.of_nat (7 * n)) (fun _ => 1700000000%Z) 4 person 3 = Ok objs /\ length objs = 3%nat /\
  field_values 0 objs = [Some ("id", GvInt 2); Some ("id", GvInt 1); Some ("id", GvInt 0)].
Proof. eexists. split; [vm_compute; reflexivity|]. split; reflexivity. Qed.
