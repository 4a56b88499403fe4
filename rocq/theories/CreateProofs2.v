(** Proofs about creatable catalogs, part 2: where the named types of columns and members come from. *)
From Verif Require Import PyStr QuoteModel ObjectDict ObjectDictProofs Types Objects Compat Convert ConvertSpec ConvertProofs CloseSpec
  CloseProofs1 CloseProofs2 CloseProofs3 CloseProofs4 CloseProofs5 CloseProofs6 CreateSpec CreateProofs1.
From Coq Require Import List Permutation Lia.
Open Scope string_scope.

Lemma compat2_same l r s q : compat2 l r = Ok s -> uses s q -> s = l.
Proof.
  unfold compat2. destruct (type_eqb l r); [intros [= ->]; auto|]. intros H U. exfalso.
  destruct (base_type l), (base_type r); try discriminate; eapply same_class_uses in H; eauto; leafy.
Qed.
Lemma compatible_first l s q : compatible_type l = Ok s -> uses s q -> In s l.
Proof.
  destruct l as [|x l]; simpl; [discriminate|]. intros H U. left. revert x H.
  induction l as [|y l IH]; simpl; intros x H; [injection H as ->; reflexivity|]. binds H. pose proof H as H'. apply IH in H'. subst v.
  symmetry. now apply (compat2_same x y s q).
Qed.

Lemma collects_unwrap t c : collects (unwrap t) c -> collects t c.
Proof. destruct t; simpl; auto. now constructor. Qed.
Lemma collects_mk_ann t ms c : collects (mk_ann t ms) c -> collects t c.
Proof. unfold mk_ann. destruct ms; auto. destruct t; auto; intros H; inversion H; subst; auto. now constructor. Qed.
Lemma collects_mk_union l c : collects (mk_union l) c -> exists t, In t l /\ collects t c.
Proof.
  unfold mk_union. destruct l as [|x [|y r]]; intros H.
  - inversion H; subst. simpl in *. tauto.
  - exists x. split; [now left|auto].
  - inversion H; subst. eauto.
Qed.
Lemma collects_members t x c : In x (union_members t) -> collects x c -> collects t c.
Proof. unfold union_members. intros I H. apply collects_unwrap. destruct (unwrap t); simpl in I; try tauto. econstructor; eauto. Qed.
Lemma collects_optional t c : collects (unwrap_optional t) c -> collects t c.
Proof.
  unfold unwrap_optional. destruct (unwrap t) eqn:E; auto. intros H.
  apply collects_mk_ann in H. apply collects_mk_union in H as (x & I & H). apply filter_In in I as [I _].
  apply collects_unwrap. rewrite E. econstructor; eauto.
Qed.
Lemma collects_default t c : collects (drop_default t) c -> collects t c.
Proof.
  unfold drop_default. destruct (_ && _); auto. intros H. apply collects_mk_union in H as (x & I & H).
  apply remove_first_in in I. eapply collects_members; eauto.
Qed.
Lemma collects_field t c : collects (field_type (field_properties t)) c -> collects t c.
Proof.
  unfold field_type, field_properties. simpl. intros H. apply collects_mk_ann in H. apply collects_unwrap in H.
  destruct (is_optional _); [apply collects_optional in H|]; apply collects_default in H; now apply collects_unwrap.
Qed.
Lemma collects_evaluate t c : collects (evaluate t) c -> collects t c.
Proof. destruct t; simpl; auto. intros H. inversion H; subst. Qed.
Lemma collects_mentions t : forall c, collects t c -> mentions t c.
Proof. intros c H. induction H; try (constructor; assumption). econstructor; eauto. Qed.

Section Create2.
Context (env : cid -> classdef) (o : copts) (refs : list cid) (fuel : nat).
Hypothesis HO : ordinary env o refs.
Hypothesis HT : ordinary_types env o refs.
Hypothesis HR : creatable env o refs.

Lemma structure_cls c : is_struct_cls env c = true -> structure env c.
Proof.
  unfold is_struct_cls. destruct (env c) as [fs a d ps| |] eqn:K; try discriminate. intros H. split; [eauto 6|].
  intros (fs' & a' & d' & ps' & K' & f & If & KF). rewrite K in K'. injection K' as <- <- <- <-.
  unfold has_key, fields_of in H. rewrite K in H. apply Bool.negb_true_iff in H. rewrite <- Bool.not_true_iff_false in H. apply H.
  apply existsb_exists. exists f. split; [exact If|]. now apply primary_key_type.
Qed.
Definition named (c : cid) (q : qid) : Prop := In c refs /\ class_qid o c = Ok q.
(** a type made from [t] uses the type [q]: of the engine, of an enumeration, or of a structure that [t] mentions; if it is
    not [q] itself, then [t] is a collection *)
Definition placed (t : pytype) (s : sqltype) (q : qid) : Prop :=
  (exists g, q = Global g) \/
  (exists c, named c q /\ ((is_enum_cls env c = true /\ o_enum o = EmType) \/ (is_struct_cls env c = true /\ o_struct o = SmType /\ mentions t c)) /\
             (user_ref s = Some q \/ (o_array o = AmArray /\ collects t c))).
Lemma placed_more t u s q : (forall c, mentions t c -> mentions u c) -> (forall c, collects t c -> collects u c) -> placed t s q -> placed u s q.
Proof.
  intros M C [G|(c & N & K & D)]; [now left|]. right. exists c. split; [exact N|]. split; [|destruct D as [D|[D1 D2]]; auto].
  destruct K as [K|(K1 & K2 & K3)]; auto.
Qed.
Lemma value_global t s q : value_sql o t = Ok (Some s) -> uses s q -> exists g, q = Global g.
Proof.
  intros H U. revert H. unfold value_sql. destruct (subst o t) as [s0|] eqn:S; [intros [= ->]; apply subst_in in S; eapply (ot_subst _ _ _ HT); eauto|].
  destruct (basic_sql t) as [s0|] eqn:B.
  { intros [= ->]. unfold basic_sql in B. destruct t; try discriminate; injection B as <-; inversion U; subst; eauto. }
  destruct (fixed_sql o t) as [s0|] eqn:F.
  { intros [= ->]. unfold fixed_sql, extra, plain_int in F.
    repeat match type of F with (if ?b then _ else _) = _ => destruct b; [try (injection F as <-; destruct (o_extra o); inversion U; subst; eauto; fail)|] end; try discriminate;
    injection F as <-; inversion U; subst; eauto. }
  destruct (metadata t) as [|m ms]; [discriminate|].
  assert (A : forall s0, annotated_base o (unwrap t) = Some s0 -> uses s0 q -> exists g, q = Global g).
  { intros s0 A U0. unfold annotated_base in A. destruct (subst o (unwrap t)) eqn:S'; [injection A as <-; apply subst_in in S'; eapply (ot_subst _ _ _ HT); eauto|].
    destruct (unwrap t); try discriminate; injection A as <-; inversion U0. }
  revert A. generalize (annotated_base o (unwrap t)), (m :: ms). clear - U. intros b l. revert b.
  induction l as [|m l IH]; simpl; intros b A H; [injection H as ->; eauto|].
  destruct (o_skip o m); [eapply IH; eauto|]. destruct b as [b|]; [|discriminate]. binds H. eapply IH; [|exact H].
  intros s0 [= <-] U0. apply (A b eq_refl). eapply parse_meta_uses; eauto.
Qed.
Lemma scalar_global t s q : scalar_sql o t = Ok s -> uses s q -> exists g, q = Global g.
Proof. unfold scalar_sql. intros H U. binds H. destruct v; [|discriminate]. injection H as ->. eapply value_global; eauto. Qed.
Lemma placed_simple t s q : good env o refs t -> simple_sql env o t = Ok s -> uses s q ->
  (exists g, q = Global g) \/ (exists c, named c q /\ unwrap t = YCls c /\ is_enum_cls env c = true /\ o_enum o = EmType /\ user_ref s = Some q).
Proof.
  intros G H U. unfold simple_sql in H. binds H. destruct v as [v|]; [injection H as ->; left; eapply value_global; eauto|].
  destruct (unwrap t) eqn:W; try discriminate. destruct (env c) eqn:K; try discriminate.
  assert (Ic : In c refs) by (apply G; apply mentions_unwrap; rewrite W; constructor).
  unfold enum_sql in H. binds H.
  destruct v; destruct (o_enum o) eqn:OE; try discriminate; try (left; eapply scalar_global; [exact H|exact U]);
    try (binds H; injection H as <-; inversion U; subst; right; exists c; split; [split; assumption|]; split; [reflexivity|]; split; [unfold is_enum_cls; now rewrite K|]; split; [reflexivity|reflexivity]);
    try (injection H as <-; inversion U).
Qed.

(** key types *)
Lemma key_fieldless c k : In c refs -> key_type_of env c = Ok k -> (forall d, ~ collects k d) /\ (forall d, mentions k d -> ~ structure env d).
Proof.
  intros Ic K. unfold key_type_of in K. destruct (find _ (fields_of env c)) as [f|] eqn:F; [|discriminate]. injection K as <-.
  apply find_some in F as [If P]. pose proof (ord_keys _ _ _ HO c f Ic If (primary_tagged env _ P)) as KF.
  destruct (cr_keys _ _ _ HR c f Ic If KF) as (_ & _ & C & S). split.
  - intros d X. apply (C d). now apply collects_field.
  - intros d X. apply S. now apply (mentions_field env).
Qed.
Lemma placed_key c k t s q : In c refs -> key_type_of env c = Ok k -> placed k s q -> placed t s q.
Proof.
  intros Ic K [G|(d & N & E & D)]; [now left|]. destruct (key_fieldless c k Ic K) as [C S]. right. exists d. split; [exact N|]. split.
  - destruct E as [E|(E1 & _ & E3)]; [auto|]. exfalso. apply (S d E3). now apply structure_cls.
  - destruct D as [D|[_ D]]; [auto|]. destruct (C d D).
Qed.

Lemma member_placed n : forall t s q, good env o refs t -> member_sql env o n t = Ok s -> uses s q -> placed t s q.
Proof.
  induction n as [|n IH]; intros t s q G H U; [discriminate|]. cbn [member_sql] in H.
  assert (J : good env o refs YJson) by (apply good_leaf; intros d M; inversion M).
  assert (JP : forall s q, member_sql env o n YJson = Ok s -> uses s q -> placed t s q).
  { intros s' q' H' U'. eapply placed_more; [| |eapply IH; [exact J|exact H'|exact U']]; intros c M; inversion M. }
  destruct (subst o t) as [s0|] eqn:S; [injection H as ->; apply subst_in in S; left; eapply (ot_subst _ _ _ HT); eauto|].
  destruct (is_simple env t) eqn:Si.
  { destruct (placed_simple t s q G H U) as [X|(c & N & W & Ee & OE & R)]; [now left|]. right. exists c. auto. }
  destruct (entity_of env t) as [c|] eqn:En.
  { binds H. assert (Ic : In c refs) by (apply G; now apply (entity_mentions env)). eapply placed_key; eauto. eapply IH; [|exact H|exact U]. eapply key_good; eauto. }
  destruct (dataclass_of env t) as [c|] eqn:Da.
  { assert (W : unwrap t = YCls c /\ is_struct_cls env c = true).
    { unfold entity_of in En. rewrite Da in En. unfold dataclass_of in Da. destruct (unwrap t); try discriminate. destruct (env c0) eqn:K; try discriminate.
      injection Da as <-. split; [reflexivity|]. unfold is_struct_cls. rewrite K. destruct (has_key env c0); [discriminate|reflexivity]. }
    destruct W as [W St]. assert (Mc : mentions t c) by (apply mentions_unwrap; rewrite W; constructor). assert (Ic : In c refs) by now apply G.
    destruct (o_struct o) eqn:OS.
    - binds H. injection H as <-. inversion U; subst. right. exists c. split; [split; assumption|]. split; [right; auto|now left].
    - binds H. injection H as <-. inversion U as [| | |l nm t' b q' I U']; subst. apply map_res_all2 in E.
      destruct (all2_in_r _ _ _ _ E I) as (f & If & Ef). binds Ef. injection Ef as <- <- <-.
      assert (P : placed (field_type (field_properties (f_type f))) v0 q) by (eapply IH; [|eassumption|exact U']; eapply good_class; eauto).
      destruct P as [P|(d & _ & [[_ OE]|(_ & OS' & _)] & _)]; [now left| |congruence]. exfalso. apply (cr_inline _ _ _ HR OE). exact OS.
    - auto. }
  destruct (forward_of t) as [c|] eqn:Fo.
  { destruct t; try discriminate. injection Fo as ->. eapply placed_more; [| |eapply IH; [|exact H|exact U]].
    - intros d M. inversion M; subst. constructor.
    - intros d M. inversion M.
    - eapply good_cls; [exact G|constructor]. }
  destruct (literals_of t) as [vs|] eqn:Li.
  { destruct (forallb _ vs).
    - apply (compatible_first _ _ q) in H; [|exact U]. apply in_map_iff in H as (y & <- & _). inversion U.
    - binds H. apply (compatible_first _ _ q) in H; [|exact U]. apply map_res_all2 in E. destruct (all2_in_r _ _ _ _ E H) as (y & _ & Ey).
      destruct (literal_type y) as [u|] eqn:L; [|discriminate]. assert (LF : u = YStr \/ u = YBool \/ u = YInt) by (destruct y; try discriminate; injection L as <-; auto).
      eapply placed_more; [| |eapply IH; [|exact Ey|exact U]]; [intros d M|intros d M|apply good_leaf; intros d M]; destruct LF as [-> | [-> | ->]]; inversion M. }
  destruct (items_of t) as [e|] eqn:It.
  { assert (Ce : forall d, mentions e d -> collects t d).
    { intros d M. apply collects_unwrap. unfold items_of in It. destruct (unwrap t); try discriminate; injection It as ->; now constructor. }
    assert (Me : forall d, mentions e d -> mentions t d) by (intros d M; apply collects_mentions; auto).
    assert (Ge : forall d, mentions e d -> In d refs /\ env d <> KOther) by (intros d M; apply G; auto).
    destruct (is_simple env e) eqn:Se.
    - destruct (o_array o) eqn:OA; try discriminate; [|auto]. binds H. injection H as <-. inversion U as [|? ? U'| |]; subst.
      unfold simple_sql in E. binds E. destruct v0 as [v0|]; [injection E as ->; left; eapply value_global; eauto|].
      destruct (unwrap e) eqn:W; try discriminate.
      destruct (placed_simple e v q) as [X|(d & N & W' & Ee & OE & R)]; [|unfold simple_sql; rewrite E0; simpl; rewrite W; exact E|exact U'|now left|].
      + split; [exact Ge|]. intros _ _ d L. exfalso. clear - L W. destruct e; simpl in W; try discriminate; inversion L; subst.
        match goal with X : lists (YCls _) _ |- _ => inversion X end.
      + right. exists d. split; [exact N|]. split; [auto|]. right. split; [exact OA|]. apply Ce, mentions_unwrap. rewrite W'. constructor.
    - destruct (is_entity env e) eqn:Ee; [discriminate|]. destruct (class_of e) as [c|] eqn:Cls; [|discriminate].
      destruct (o_array o) eqn:OA; try discriminate; [|auto]. binds H. injection H as <-.
      inversion U as [|? ? U'| |]; subst. inversion U'; subst.
      assert (Ec : e = YCls c).
      { destruct e; try discriminate; injection Cls as <-; try reflexivity; exfalso; match goal with X : class_qid o _ = Ok _ |- _ => first [exact (builtin_qid env o refs HT _ _ _ (or_introl eq_refl) X)|exact (builtin_qid env o refs HT _ _ _ (or_intror eq_refl) X)] end. }
      subst e. destruct (Ge c) as [Ic Oc]; [constructor|].
      assert (St : is_struct_cls env c = true).
      { unfold is_entity, entity_of, dataclass_of in Ee. simpl in Ee, Se. unfold is_enum_cls in Se. unfold is_struct_cls. destruct (env c); try discriminate; [|congruence].
        destruct (has_key env c); [discriminate|reflexivity]. }
      destruct (o_struct o) eqn:OS.
      + right. exists c. split; [split; assumption|]. split; [right; split; [exact St|]; split; [exact OS|]; apply Me; constructor|]. right. split; [exact OA|]. apply Ce. constructor.
      + exfalso. destruct (proj2 G OA ltac:(congruence) c) as (vs & K);
          [apply lists_unwrap; unfold items_of in It; destruct (unwrap t); try discriminate; injection It as ->; constructor|
           unfold is_struct_cls in St; rewrite K in St; discriminate].
      + exfalso. destruct (proj2 G OA ltac:(congruence) c) as (vs & K);
          [apply lists_unwrap; unfold items_of in It; destruct (unwrap t); try discriminate; injection It as ->; constructor|
           unfold is_struct_cls in St; rewrite K in St; discriminate]. }
  destruct (is_extensible env t); [left; eapply scalar_global; [exact H|exact U]|]. destruct (is_union t) eqn:Un.
  { destruct (forallb (is_entity env) _) eqn:Fa.
    - binds H. destruct v as [|k r]; [discriminate|]. destruct (forallb (py_eqb k) r); [|discriminate].
      apply map_res_all2 in E. destruct (all2_in_r _ _ _ k E (or_introl eq_refl)) as (x & Ix & Ex). destruct (entity_of env x) as [c|] eqn:Ec; [|discriminate].
      assert (Ic : In c refs) by (apply (good_member env o refs t x G Ix); now apply (entity_mentions env)).
      eapply placed_key; eauto. eapply IH; [|exact H|exact U]. eapply key_good; eauto.
    - binds H. apply (compatible_first _ _ q) in H; [|exact U]. apply map_res_all2 in E. destruct (all2_in_r _ _ _ _ E H) as (y & Iy & Ey).
      eapply placed_more; [| |eapply IH; [|exact Ey|exact U]; exact (good_member env o refs t y G Iy)]; apply in_map_iff in Iy as (z & <- & Iz); intros d M.
      + apply (mentions_members env _ z _ Iz). now apply mentions_evaluate.
      + apply (collects_members _ z _ Iz). now apply collects_evaluate. }
  destruct (class_of t) as [c|] eqn:Ct; [|discriminate]. binds H. injection H as <-. inversion U; subst.
  assert (Ec : t = YCls c).
  { destruct t; try discriminate; injection Ct as <-; try reflexivity; exfalso; match goal with X : class_qid o _ = Ok _ |- _ => first [exact (builtin_qid env o refs HT _ _ _ (or_introl eq_refl) X)|exact (builtin_qid env o refs HT _ _ _ (or_intror eq_refl) X)] end. }
  subst t. exfalso. destruct (proj1 G c) as [_ Oc]; [constructor|]. unfold is_simple, is_enum_cls in Si. unfold dataclass_of in Da. simpl in Da. destruct (env c); try discriminate. congruence.
Qed.

(** ** Columns and members *)

(** a type in the schema of module [m]: collections are of types of that module *)
Definition at_home (m : string) (s : sqltype) (q : qid) : Prop :=
  (exists g, q = Global g) \/
  (exists c, named c q /\ ((is_enum_cls env c = true /\ o_enum o = EmType) \/ (is_struct_cls env c = true /\ o_struct o = SmType)) /\ (user_ref s = Some q \/ fst c = m)).
Lemma not_entity c : is_enum_cls env c = true \/ is_struct_cls env c = true -> ~ entity env c.
Proof.
  intros [E|E]; [|now apply structure_cls in E as [_ E]]. intros (fs & a & d & ps & K & _). unfold is_enum_cls in E. rewrite K in E. discriminate.
Qed.
Lemma placed_home m f s q : field_in env refs m f -> placed (field_type (field_properties (f_type f))) s q -> at_home m s q.
Proof.
  intros F [G|(c & N & K & D)]; [now left|]. right. exists c. split; [exact N|]. split; [tauto|]. destruct D as [D|[OA D]]; [auto|].
  right. apply collects_field in D. destruct (cr_arrays _ _ _ HR m f c OA F D) as [X|X]; [|exact X]. exfalso. revert X. apply not_entity. tauto.
Qed.
Lemma field_relevant m f : field_in env refs m f -> relevant env refs f.
Proof. intros [c Ic _ If|c vs d x s Ic _ K I If]; [econstructor; eauto|eapply rl_value; eauto]. Qed.
Lemma field_home m f n s q : field_in env refs m f -> member_sql env o n (field_type (field_properties (f_type f))) = Ok s -> uses s q -> at_home m s q.
Proof.
  intros F H U. eapply placed_home; [exact F|]. eapply member_placed; [|exact H|exact U]. eapply good_relevant; eauto. eapply field_relevant; eauto.
Qed.
Lemma key_home c k n s q m : In c refs -> key_type_of env c = Ok k -> member_sql env o n k = Ok s -> uses s q -> at_home m s q.
Proof.
  intros Ic K H U. assert (P : placed k s q) by (eapply member_placed; [eapply key_good; eauto|exact H|exact U]).
  destruct (key_fieldless c k Ic K) as [C _]. destruct P as [G|(d & N & E & D)]; [now left|]. right. exists d. split; [exact N|]. split; [tauto|].
  destruct D as [D|[_ D]]; [auto|]. destruct (C d D).
Qed.
Lemma leaf_home t n s q m : (forall d, ~ mentions t d) -> (forall d, ~ lists t d) -> member_sql env o n t = Ok s -> uses s q -> at_home m s q.
Proof.
  intros M L H U. assert (P : placed t s q) by (eapply member_placed; [apply good_leaf; assumption|exact H|exact U]).
  destruct P as [G|(d & N & E & D)]; [now left|]. right. exists d. split; [exact N|]. split; [tauto|]. destruct D as [D|[_ D]]; [auto|].
  apply collects_mentions in D. destruct (M d D).
Qed.
Lemma table_home ts m t col q : all_tables env o fuel refs = Ok ts -> In (m, t) ts -> In col (t_columns t) -> uses (c_type col) q -> at_home m (c_type col) q.
Proof.
  intros HTs I Il U. pose proof (complete_classes env o refs HT) as HC. unfold all_tables in HTs. binds HTs. binds HTs. binds HTs. binds HTs. binds HTs. injection HTs as HTs'. rewrite <- HTs' in I.
  assert (ENUM : forall e, In e refs -> enum_table env o fuel e = Ok t -> m = fst e -> at_home m (c_type col) q).
  { clear - Il U HO HT HR. intros e Ie H ->. unfold enum_table in H. binds H. binds H. destruct (env e) as [|vs|] eqn:K; try discriminate. binds H. binds H. injection H as <-.
    cbn [t_columns make_table] in Il. apply make_in in Il. destruct Il as [<-|Il]; [left; eapply scalar_global; [exact E0|exact U]|].
    assert (L : (forall d, ~ mentions label_type d) /\ (forall d, ~ lists label_type d)) by (split; intros d M; inversion M; subst; match goal with X : _ YStr _ |- _ => inversion X end).
    destruct v1; try discriminate.
    - binds E2. injection E2 as <-. destruct Il as [<-|[]]. eapply leaf_home; [apply L|apply L|eassumption|exact U].
    - binds E2. injection E2 as <-. destruct Il as [<-|[]]. eapply leaf_home; [apply L|apply L|eassumption|exact U].
    - destruct (env c) as [fs a d ps| |] eqn:KC; try discriminate. binds E2. injection E2 as <-. cbn [fst] in Il.
      apply map_res_all2 in E3. destruct (all2_in_r _ _ _ _ E3 Il) as (f & If & Ef). apply column_name_type in Ef as [_ Ef]. eapply field_home; [|exact Ef|exact U].
      unfold enum_value_type in E1. destruct (nodup vtype_eq_dec (map ev_type vs)) as [|x [|y l]] eqn:NV; try discriminate.
      injection E1 as ->. assert (J : In (VtCls c) (map ev_type vs)) by (apply (nodup_In vtype_eq_dec); rewrite NV; now left).
      apply in_map_iff in J as (w & W & Iw). destruct w; simpl in W; try discriminate. injection W as ->. eapply fi_value; eauto. }
  repeat (apply in_app_iff in I as [I|I]).
  - unfold entity_tables in E. apply map_res_all2 in E. destruct (all2_in_r _ _ _ _ E I) as (c & Ic & Ec). binds Ec. injection Ec as <- <-.
    apply tys_in in Ic as [Ic _]. apply table_inv in E4 as (cols & ks & tq & k & H1 & H2 & H3 & H4 & ->). cbn [t_columns make_table] in Il. apply make_in in Il.
    unfold table_columns in H1. apply map_res_all2 in H1. destruct (all2_in_r _ _ _ _ H1 Il) as (f & If & Ef). unfold column_fields in If.
    apply filter_In in If as [If _]. apply column_name_type in Ef as [_ Ef]. eapply field_home; [|exact Ef|exact U]. eapply fi_class; eauto.
  - destruct (enum_tables_in env o fuel _ _ _ _ E0 I) as (e & Ie & M & Ee). apply (ENUM e); auto.
    eapply (es_refs env o refs HC v1 E1). apply in_app_iff. eauto.
  - destruct (enum_tables_in env o fuel _ _ _ _ E2 I) as (e & Ie & M & Ee). apply (ENUM e); auto.
    eapply (es_refs env o refs HC v1 E1). apply in_app_iff. eauto.
  - unfold join_tables in E3. binds E3. injection E3 as <-. destruct (in_concat_ok _ _ _ _ E4 I) as (c & l & Ic & El & Il').
    binds El. injection El as <-. destruct (in_concat_ok _ _ _ _ E3 Il') as (f & l' & If & Ef & Il2). apply tys_in in Ic as [Ic _]. clear ENUM E E0 E1 E2 E3 E4 HTs'.
    unfold join_table in Ef. destruct (relationship env o (f_type f)) as [[b item]|] eqn:R; [|injection Ef as <-; destruct Il2].
    binds Ef. binds Ef. match type of Ef with context[let (_, _) := ?v in _] => destruct v as [[r rk] rs] end. binds Ef. binds Ef. binds Ef. binds Ef. binds Ef. binds Ef. binds Ef. injection Ef as Ef. rewrite <- Ef in Il2.
    destruct Il2 as [Il2|[]]. injection Il2 as <- <-. cbn [t_columns make_table] in Il. apply make_in in Il.
    destruct Il as [<-|[<-|[<-|[]]]]; cbn [c_type] in *.
    + eapply leaf_home; [| |eassumption|exact U]; intros d M; inversion M.
    + match goal with K : key_type_of env c = Ok ?k, B : member_sql env o _ ?k = Ok ?s, W : uses ?s q |- _ => exact (key_home _ _ _ _ _ _ Ic K B W) end.
    + destruct (entity_of env item) as [x|] eqn:En.
      * binds E0. binds E0. binds E0. injection E0 as <- <- <-. match goal with K : key_type_of env x = Ok ?k, B : member_sql env o _ ?k = Ok ?s, W : uses ?s q |- _ => refine (key_home _ _ _ _ _ _ _ K B W) end.
        apply (HC c f x Ic If). apply (mentions_relationship env o _ _ _ _ R). now apply (entity_mentions env).
      * destruct (o_enum o) eqn:OE; try discriminate. destruct (unwrap item) eqn:Ui; try discriminate.
        destruct (is_enum_cls env c0) eqn:Ee; [|discriminate]. binds E0. injection E0 as <- <- <-. left. eapply scalar_global; [eassumption|exact U].
Qed.
(** members: structures are mentioned by the structure that has the member *)
Lemma struct_home c u mb q : In c refs -> dataclass_to_struct env o fuel c = Ok u -> In mb (s_members u) -> uses (m_type mb) q ->
  at_home (fst c) (m_type mb) q /\ forall d, class_qid o d = Ok q -> In d refs -> (forall d', In d' refs -> class_qid o d' = Ok q -> d' = d) -> is_struct_cls env d = true ->
  exists f, In f (data_fields env c) /\ mentions (f_type f) d.
Proof.
  intros Ic H Im U. unfold dataclass_to_struct in H. destruct (env c) eqn:K; try discriminate. binds H. binds H. injection H as <-. cbn [s_members] in Im. apply make_in in Im.
  apply map_res_all2 in E. destruct (all2_in_r _ _ _ _ E Im) as (f & If & Ef). binds Ef. injection Ef as <-. cbn [m_type] in *.
  assert (P : placed (field_type (field_properties (f_type f))) v1 q) by (eapply member_placed; [eapply good_class; eauto|eassumption|exact U]).
  split; [eapply placed_home; [eapply fi_class; eauto|exact P]|]. intros d Q Id Ud St. exists f. split; [exact If|].
  destruct P as [(g & ->)|(d' & (N1 & N2) & KK & _)].
  - exfalso. unfold class_qid, qualified_id_of in Q. binds Q. destruct (o_qualified o); discriminate.
  - rewrite (Ud d' N1 N2) in *. destruct KK as [[KK _]|(_ & _ & M)]; [|now apply (mentions_field env)].
    exfalso. unfold is_enum_cls in KK. unfold is_struct_cls in St. destruct (env d); discriminate.
Qed.
End Create2.
