(** Proofs about closed catalogs, part 6: the types of columns and of members of structures. *)
From Verif Require Import PyStr QuoteModel ObjectDict ObjectDictProofs Types Objects Compat Convert ConvertSpec ConvertProofs CloseSpec CloseProofs1 CloseProofs2 CloseProofs3 CloseProofs4 CloseProofs5.
From Coq Require Import Permutation Lia.
Open Scope string_scope.

(** ** Types that values are combined to *)
Lemma same_class_uses t : forall u r q, same_class t u = Ok r -> uses r q -> uses u q.
Proof.
  induction t; simpl; intros u r q H U; try (injection H as <-; exact U).
  destruct c; try discriminate; binds H; injection H as <-; inversion U; subst; eauto.
Qed.
Ltac leafy := match goal with U : uses _ _ |- _ => solve [inversion U] end.
Lemma compat2_uses l r s q : compat2 l r = Ok s -> uses s q -> uses l q.
Proof.
  unfold compat2. destruct (type_eqb l r); [intros [= ->]; auto|]. intros H U.
  destruct (base_type l), (base_type r); try discriminate; eapply same_class_uses in H; eauto; leafy.
Qed.
Lemma compatible_uses l s q : compatible_type l = Ok s -> uses s q -> exists x, In x l /\ uses x q.
Proof.
  destruct l as [|x l]; simpl; [discriminate|]. intros H U. exists x. split; [now left|]. revert x H.
  induction l as [|y l IH]; simpl; intros x H; [injection H as ->; exact U|]. binds H. apply IH in H. eapply compat2_uses; eauto.
Qed.
Lemma parse_meta_uses t : forall m r q, parse_meta t m = Ok r -> uses r q -> uses t q.
Proof.
  induction t; intros m r q H U; simpl in H; try discriminate; try (destruct m; try discriminate; injection H as <-; inversion U).
  binds H. injection H as <-. inversion U; subst. constructor. eauto.
Qed.

(** ** Collections in types *)
Lemma lists_unwrap t c : lists (unwrap t) c -> lists t c.
Proof. destruct t; simpl; auto. now constructor. Qed.
Lemma lists_mk_ann t ms c : lists (mk_ann t ms) c -> lists t c.
Proof.
  unfold mk_ann. destruct ms; auto. destruct t; auto; intros H; inversion H; subst; auto. now constructor.
Qed.
Lemma lists_mk_union l c : lists (mk_union l) c -> exists t, In t l /\ lists t c.
Proof.
  unfold mk_union. destruct l as [|x [|y r]]; intros H.
  - inversion H; subst; simpl in *; tauto.
  - exists x. split; [now left|auto].
  - inversion H; subst. eauto.
Qed.
Lemma lists_members t x c : In x (union_members t) -> lists x c -> lists t c.
Proof.
  unfold union_members. intros I H. apply lists_unwrap. destruct (unwrap t); simpl in I; try tauto. econstructor; eauto.
Qed.
Lemma lists_optional t c : lists (unwrap_optional t) c -> lists t c.
Proof.
  unfold unwrap_optional. destruct (unwrap t) eqn:E; auto. intros H.
  apply lists_mk_ann in H. apply lists_mk_union in H as (x & I & H). apply filter_In in I as [I _].
  apply lists_unwrap. rewrite E. econstructor; eauto.
Qed.
Lemma lists_default t c : lists (drop_default t) c -> lists t c.
Proof.
  unfold drop_default. destruct (_ && _); auto. intros H. apply lists_mk_union in H as (x & I & H).
  apply remove_first_in in I. eapply lists_members; eauto.
Qed.
Lemma lists_field t c : lists (field_type (field_properties t)) c -> lists t c.
Proof.
  unfold field_type, field_properties. simpl. intros H. apply lists_mk_ann in H. apply lists_unwrap in H.
  destruct (is_optional _); [apply lists_optional in H|]; apply lists_default in H; now apply lists_unwrap.
Qed.
Lemma lists_evaluate t c : lists (evaluate t) c -> lists t c.
Proof. destruct t; simpl; auto. intros H. inversion H; subst. Qed.

Section Close6.
Context (env : cid -> classdef) (o : copts) (refs : list cid) (fuel : nat).
Hypothesis HO : ordinary env o refs.
Hypothesis HT : ordinary_types env o refs.

Definition good (t : pytype) : Prop :=
  (forall d, mentions t d -> In d refs /\ env d <> KOther) /\
  (o_array o = AmArray -> o_struct o <> SmType -> forall d, lists t d -> exists vs, env d = KEnum vs).
Definition known (q : qid) : Prop :=
  (exists g, q = Global g) \/
  (exists c, In c refs /\ class_qid o c = Ok q /\ ((is_enum_cls env c = true /\ o_enum o = EmType) \/ (is_struct_cls env c = true /\ o_struct o = SmType))).

Lemma good_relevant f : relevant env refs f -> good (field_type (field_properties (f_type f))).
Proof.
  intros R. split.
  - intros d M. apply (ot_complete _ _ _ HT f); auto. now apply (mentions_field env).
  - intros A S d L. apply (ot_arrays _ _ _ HT f d A S R). now apply lists_field.
Qed.
Lemma good_class c f : In c refs -> In f (data_fields env c) -> good (field_type (field_properties (f_type f))).
Proof. intros Ic If. apply good_relevant. econstructor; eauto. Qed.
Lemma good_member t x : good t -> In x (map evaluate (union_members t)) -> good x.
Proof.
  intros [A B] I. apply in_map_iff in I as (y & <- & I). split.
  - intros d M. apply A. apply (mentions_members env _ y _ I). now apply mentions_evaluate.
  - intros X Y d L. apply (B X Y). eapply lists_members; eauto. now apply lists_evaluate.
Qed.
Lemma good_leaf t : (forall d, ~ mentions t d) -> (forall d, ~ lists t d) -> good t.
Proof. intros A B. split; [intros d M; destruct (A d M)|intros _ _ d L; destruct (B d L)]. Qed.
Lemma good_cls t c : good t -> mentions t c -> good (YCls c).
Proof.
  intros [A _] M. split; [|intros _ _ d L; inversion L]. intros d N. inversion N; subst. auto.
Qed.
Lemma key_good c k : In c refs -> key_type_of env c = Ok k -> good k.
Proof.
  intros Ic K. unfold key_type_of in K. destruct (find _ (fields_of env c)) as [f|] eqn:F; [|discriminate]. injection K as <-.
  apply find_some in F as [If _]. eapply good_class; eauto.
Qed.

Lemma subst_known t s q : subst o t = Some s -> uses s q -> known q.
Proof. intros S U. apply subst_in in S. left. eapply (ot_subst _ _ _ HT); eauto. Qed.
Lemma value_known t s q : value_sql o t = Ok (Some s) -> uses s q -> known q.
Proof.
  unfold value_sql. destruct (subst o t) as [s0|] eqn:S; [intros [= ->]; eapply subst_known; eauto|].
  destruct (basic_sql t) as [s0|] eqn:B.
  { intros [= ->] U. unfold basic_sql in B. left. destruct t; try discriminate; injection B as <-; inversion U; subst; eauto. }
  destruct (fixed_sql o t) as [s0|] eqn:F.
  { intros [= ->] U. left. unfold fixed_sql, extra, plain_int in F.
    repeat match type of F with (if ?b then _ else _) = _ => destruct b; [try (injection F as <-; destruct (o_extra o); inversion U; subst; eauto; fail)|] end; try discriminate;
    injection F as <-; inversion U; subst; eauto. }
  destruct (metadata t) as [|m ms]; [discriminate|].
  assert (A : forall s0, annotated_base o (unwrap t) = Some s0 -> uses s0 q -> known q).
  { intros s0 A U. unfold annotated_base in A. destruct (subst o (unwrap t)) eqn:S'; [injection A as <-; eapply subst_known; eauto|].
    destruct (unwrap t); try discriminate; injection A as <-; inversion U. }
  revert A. generalize (annotated_base o (unwrap t)), (m :: ms). clear. intros b l. revert b.
  induction l as [|m l IH]; simpl; intros b A H U; [injection H as ->; eauto|].
  destruct (o_skip o m); [eapply IH; eauto|]. destruct b as [b|]; [|discriminate]. binds H. eapply IH; [|exact H|exact U].
  intros s0 [= <-] U0. apply (A b eq_refl). eapply parse_meta_uses; eauto.
Qed.
Lemma scalar_known t s q : scalar_sql o t = Ok s -> uses s q -> known q.
Proof. unfold scalar_sql. intros H U. binds H. destruct v; [|discriminate]. injection H as ->. eapply value_known; eauto. Qed.
Lemma simple_known t s q : good t -> simple_sql env o t = Ok s -> uses s q -> known q.
Proof.
  intros G H U. unfold simple_sql in H. binds H. destruct v as [v|]; [injection H as ->; eapply value_known; eauto|].
  destruct (unwrap t) eqn:W; try discriminate. destruct (env c) eqn:K; try discriminate.
  assert (Ic : In c refs) by (apply G; apply mentions_unwrap; rewrite W; constructor).
  unfold enum_sql in H. binds H.
  destruct v; destruct (o_enum o) eqn:OE; try discriminate; try (eapply scalar_known; [exact H|exact U]);
    try (binds H; injection H as <-; inversion U; subst; right; exists c; split; [exact Ic|]; split; [assumption|]; left; split; [unfold is_enum_cls; now rewrite K|exact OE]);
    try (injection H as <-; inversion U).
Qed.

Lemma builtin_qid m n q : (m = "builtins" \/ m = "pysqlsync.model.key_types") -> class_qid o (m, n) <> Ok q.
Proof.
  intros M H. unfold class_qid, qualified_id_of in H. binds H. apply ns_in in E; auto. apply (ot_builtin _ _ _ HT) in E. simpl in E. tauto.
Qed.

Lemma member_known n : forall t s q, good t -> member_sql env o n t = Ok s -> uses s q -> known q.
Proof.
  induction n as [|n IH]; intros t s q G H U; [discriminate|]. cbn [member_sql] in H.
  assert (J : good YJson) by (apply good_leaf; intros d M; inversion M).
  destruct (subst o t) as [s0|] eqn:S; [injection H as ->; eapply subst_known; eauto|].
  destruct (is_simple env t) eqn:Si; [exact (simple_known t s q G H U)|].
  destruct (entity_of env t) as [c|] eqn:En.
  { binds H. eapply IH; [|exact H|exact U]. eapply key_good; eauto. apply G. now apply (entity_mentions env). }
  destruct (dataclass_of env t) as [c|] eqn:Da.
  { assert (W : unwrap t = YCls c /\ is_struct_cls env c = true).
    { unfold entity_of in En. rewrite Da in En. unfold dataclass_of in Da. destruct (unwrap t); try discriminate. destruct (env c0) eqn:K; try discriminate.
      injection Da as <-. split; [reflexivity|]. unfold is_struct_cls. rewrite K. destruct (has_key env c0); [discriminate|reflexivity]. }
    destruct W as [W St]. assert (Ic : In c refs) by (apply G; apply mentions_unwrap; rewrite W; constructor).
    destruct (o_struct o) eqn:OS.
    - binds H. injection H as <-. inversion U; subst. right. exists c. auto.
    - binds H. injection H as <-. inversion U as [| | |l nm t' b q' I U']; subst. apply map_res_all2 in E.
      destruct (all2_in_r _ _ _ _ E I) as (f & If & Ef). binds Ef. injection Ef as <- <- <-. eapply IH; [|eassumption|exact U']. eapply good_class; eauto.
    - eapply IH; [exact J|exact H|exact U]. }
  destruct (forward_of t) as [c|] eqn:Fo.
  { destruct t; try discriminate. injection Fo as ->. eapply IH; [|exact H|exact U]. eapply good_cls; [exact G|constructor]. }
  destruct (literals_of t) as [vs|] eqn:Li.
  { destruct (forallb _ vs).
    - apply (compatible_uses _ _ q) in H as (x & I & Ux); [|exact U]. apply in_map_iff in I as (y & <- & _). inversion Ux.
    - binds H. apply (compatible_uses _ _ q) in H as (x & I & Ux); [|exact U]. apply map_res_all2 in E. destruct (all2_in_r _ _ _ _ E I) as (y & _ & Ey).
      destruct (literal_type y) as [u|] eqn:L; [|discriminate]. eapply IH; [|exact Ey|exact Ux].
      apply good_leaf; intros d M; destruct y; try discriminate; injection L as <-; inversion M. }
  destruct (items_of t) as [e|] eqn:It.
  { assert (Ge : forall d, mentions e d -> In d refs /\ env d <> KOther).
    { intros d M. apply G. apply mentions_unwrap. unfold items_of in It. destruct (unwrap t); try discriminate; injection It as ->; now constructor. }
    destruct (is_simple env e) eqn:Se.
    - destruct (o_array o); try discriminate; [|eapply IH; [exact J|exact H|exact U]]. binds H. injection H as <-. inversion U; subst.
      unfold simple_sql in E. binds E. destruct v0 as [v0|]; [injection E as ->; eapply value_known; eauto|].
      destruct (unwrap e) eqn:W; try discriminate. eapply simple_known; [|unfold simple_sql; rewrite E0; simpl; rewrite W; exact E|assumption].
      split; [exact Ge|]. intros _ _ d L. exfalso. clear - L W. destruct e; simpl in W; try discriminate; inversion L; subst.
      match goal with X : lists (YCls _) _ |- _ => inversion X end.
    - destruct (is_entity env e) eqn:Ee; [discriminate|]. destruct (class_of e) as [c|] eqn:Ce; [|discriminate].
      destruct (o_array o) eqn:OA; try discriminate; [|eapply IH; [exact J|exact H|exact U]]. binds H. injection H as <-.
      inversion U as [|? ? U'| |]; subst. inversion U'; subst.
      assert (Ec : e = YCls c).
      { destruct e; try discriminate; injection Ce as <-; try reflexivity; exfalso; match goal with X : class_qid o _ = Ok _ |- _ => first [exact (builtin_qid _ _ _ (or_introl eq_refl) X)|exact (builtin_qid _ _ _ (or_intror eq_refl) X)] end. }
      subst e. destruct (Ge c) as [Ic Oc]; [constructor|]. 
      assert (St : is_struct_cls env c = true).
      { unfold is_entity, entity_of, dataclass_of in Ee. simpl in Ee, Se. unfold is_enum_cls in Se. unfold is_struct_cls. destruct (env c); try discriminate; [|congruence].
        destruct (has_key env c); [discriminate|reflexivity]. }
      destruct (o_struct o) eqn:OS; [right; exists c; auto| |];
        (exfalso; destruct (proj2 G OA ltac:(congruence) c) as (vs & K);
          [apply lists_unwrap; unfold items_of in It; destruct (unwrap t); try discriminate; injection It as ->; constructor|
           unfold is_struct_cls in St; rewrite K in St; discriminate]). }
  destruct (is_extensible env t); [eapply scalar_known; [exact H|exact U]|]. destruct (is_union t) eqn:Un.
  { destruct (forallb (is_entity env) _) eqn:Fa.
    - binds H. destruct v as [|k r]; [discriminate|]. destruct (forallb (py_eqb k) r); [|discriminate]. eapply IH; [|exact H|exact U].
      apply map_res_all2 in E. destruct (all2_in_r _ _ _ k E (or_introl eq_refl)) as (x & Ix & Ex). destruct (entity_of env x) as [c|] eqn:Ec; [|discriminate].
      eapply key_good; eauto. apply (good_member t x G Ix). now apply (entity_mentions env).
    - binds H. apply (compatible_uses _ _ q) in H as (x & I & Ux); [|exact U]. apply map_res_all2 in E. destruct (all2_in_r _ _ _ _ E I) as (y & Iy & Ey).
      eapply IH; [|exact Ey|exact Ux]. exact (good_member t y G Iy). }
  destruct (class_of t) as [c|] eqn:Ct; [|discriminate]. binds H. injection H as <-. inversion U; subst.
  assert (Ec : t = YCls c).
  { destruct t; try discriminate; injection Ct as <-; try reflexivity; exfalso; match goal with X : class_qid o _ = Ok _ |- _ => first [exact (builtin_qid _ _ _ (or_introl eq_refl) X)|exact (builtin_qid _ _ _ (or_intror eq_refl) X)] end. }
  subst t. exfalso. destruct (proj1 G c) as [_ Oc]; [constructor|]. unfold is_simple, is_enum_cls in Si. unfold dataclass_of in Da. simpl in Da. destruct (env c); try discriminate. congruence.
Qed.

(** ** Columns and members *)
Definition types_known (t : table) : Prop := forall c q, In c (t_columns t) -> uses (c_type c) q -> known q.
Lemma column_known n ps f c q : relevant env refs f -> member_column env o n ps f = Ok c -> uses (c_type c) q -> known q.
Proof. intros R H U. apply column_name_type in H as [_ H]. eapply member_known; [|exact H|exact U]. now apply good_relevant. Qed.
Lemma class_table_known c t : In c refs -> dataclass_to_table env o fuel c = Ok t -> types_known t.
Proof.
  intros Ic H col q I U. apply table_inv in H as (cols & ks & tq & k & H1 & H2 & H3 & H4 & ->). cbn [t_columns make_table] in I. apply make_in in I.
  unfold table_columns in H1. apply map_res_all2 in H1. destruct (all2_in_r _ _ _ _ H1 I) as (f & If & Ef). unfold column_fields in If.
  apply filter_In in If as [If _]. eapply column_known; eauto. econstructor; eauto.
Qed.
Lemma enum_table_known e t : In e refs -> enum_table env o fuel e = Ok t -> types_known t.
Proof.
  intros Ie H col q I U. unfold enum_table in H. binds H. binds H. destruct (env e) as [|vs|] eqn:K; try discriminate. binds H. binds H. injection H as <-.
  cbn [t_columns make_table] in I. apply make_in in I. destruct I as [<-|I]; [eapply scalar_known; [exact E0|exact U]|].
  assert (L : good label_type) by (apply good_leaf; intros d M; inversion M; subst; match goal with X : _ YStr _ |- _ => inversion X end).
  destruct v1; try discriminate.
  - binds E2. injection E2 as <-. destruct I as [<-|[]]. eapply member_known; [exact L|eassumption|exact U].
  - binds E2. injection E2 as <-. destruct I as [<-|[]]. eapply member_known; [exact L|eassumption|exact U].
  - destruct (env c) as [fs a d ps| |] eqn:KC; try discriminate. binds E2. injection E2 as <-. cbn [fst] in I.
    apply map_res_all2 in E3. destruct (all2_in_r _ _ _ _ E3 I) as (f & If & Ef). eapply column_known; eauto.
    unfold enum_value_type in E1. destruct (nodup vtype_eq_dec (map ev_type vs)) as [|x [|y l]] eqn:NV; try discriminate.
    injection E1 as ->. assert (J : In (VtCls c) (map ev_type vs)) by (apply (nodup_In vtype_eq_dec); rewrite NV; now left).
    apply in_map_iff in J as (w & W & Iw). destruct w; simpl in W; try discriminate. injection W as ->. eapply rl_value; eauto.
Qed.
Lemma join_table_known c f l m t : In c refs -> In f (data_fields env c) -> join_table env o fuel c f = Ok l -> In (m, t) l -> types_known t.
Proof.
  intros Ic If H I. unfold join_table in H. destruct (relationship env o (f_type f)) as [[b item]|] eqn:R; [|injection H as <-; destruct I].
  binds H. binds H. destruct v0 as [[r rk] rs]. binds H. binds H. binds H. binds H. binds H. binds H. binds H. injection H as <-.
  destruct I as [I|[]]. injection I as <- <-. intros col q I U. cbn [t_columns make_table] in I. apply make_in in I.
  assert (LU : good YUuid) by (apply good_leaf; intros d M; inversion M).
  destruct I as [<-|[<-|[<-|[]]]]; cbn [c_type] in U.
  - eapply member_known; [exact LU|eassumption|exact U].
  - eapply member_known; [eapply key_good; [exact Ic|eassumption]|eassumption|exact U].
  - destruct (entity_of env item) as [x|] eqn:En.
    + binds E0. binds E0. binds E0. injection E0 as <- <- <-. eapply member_known; [| |exact U]; [|eassumption]. eapply key_good; [|eassumption].
      apply (ot_complete _ _ _ HT f x); [econstructor; eauto|]. apply (mentions_relationship env o _ _ _ _ R). now apply (entity_mentions env).
    + destruct (o_enum o) eqn:OE; try discriminate. destruct (unwrap item) eqn:Ui; try discriminate.
      destruct (is_enum_cls env c0) eqn:Ee; [|discriminate]. binds E0. injection E0 as <- <- <-. eapply scalar_known; [eassumption|exact U].
Qed.
Lemma complete_classes : complete env refs.
Proof. intros c f d Ic If M. apply (ot_complete _ _ _ HT f); auto. econstructor; eauto. Qed.

Section Catalog.
  Context (topo : list cid -> list cid) (ts : list (string * table)) (ets : list (string * enumt)) (sts : list (string * structt)).
  Hypothesis TP : forall l c, In c (topo l) <-> In c l.
  Hypothesis HE : enum_types env o refs = Ok ets.
  Hypothesis HS : struct_types env o fuel topo refs = Ok sts.
  Hypothesis HTs : all_tables env o fuel refs = Ok ts.

  Lemma tables_known m t : In (m, t) ts -> types_known t.
  Proof.
    intros I. pose proof HTs as H. unfold all_tables in H. binds H. binds H. binds H. binds H. binds H. injection H as H'. rewrite <- H' in I.
    repeat (apply in_app_iff in I as [I|I]).
    - unfold entity_tables in E. apply map_res_all2 in E. destruct (all2_in_r _ _ _ _ E I) as (c & Ic & Ec). binds Ec. injection Ec as <- <-.
      apply tys_in in Ic as [Ic _]. eapply class_table_known; eauto.
    - destruct (enum_tables_in env o fuel _ _ _ _ E0 I) as (e & Ie & -> & Ee). eapply enum_table_known; eauto.
      eapply (es_refs env o refs complete_classes v1 E1). apply in_app_iff. eauto.
    - destruct (enum_tables_in env o fuel _ _ _ _ E2 I) as (e & Ie & -> & Ee). eapply enum_table_known; eauto.
      eapply (es_refs env o refs complete_classes v1 E1). apply in_app_iff. eauto.
    - unfold join_tables in E3. binds E3. injection E3 as <-. destruct (in_concat_ok _ _ _ _ E4 I) as (c & l & Ic & El & Il).
      binds El. injection El as <-. destruct (in_concat_ok _ _ _ _ E3 Il) as (f & l' & If & Ef & Il').
      apply tys_in in Ic as [Ic _]. eapply join_table_known; eauto.
  Qed.
  Lemma structs_known m u mb q : In (m, u) sts -> In mb (s_members u) -> uses (m_type mb) q -> known q.
  Proof.
    intros I Im U. unfold struct_types in HS. destruct (o_struct o); try (injection HS as <-; destruct I).
    apply map_res_all2 in HS. destruct (all2_in_r _ _ _ _ HS I) as (c & Ic & Ec). binds Ec. injection Ec as <- <-.
    apply (proj1 (TP _ _)) in Ic. rewrite sort_names_in in Ic. apply filter_In in Ic as [Ic _].
    unfold dataclass_to_struct in E. destruct (env c) eqn:K; try discriminate. binds E. binds E. injection E as <-. cbn [s_members] in Im. apply make_in in Im.
    apply map_res_all2 in E0. destruct (all2_in_r _ _ _ _ E0 Im) as (f & If & Ef). binds Ef. injection Ef as <-. 
    eapply member_known; [|eassumption|exact U]. eapply good_class; eauto.
  Qed.

  Lemma make_key {A} (key : A -> string) l x : In x l -> exists y, In y (od_make key l) /\ In y l /\ key y = key x.
  Proof.
    intros I. pose proof (make_get key l (key x)) as G. destruct (od_get key (key x) (rev l)) as [y|] eqn:E.
    - apply get_some in G as [Iy Ky]. exists y. split; [exact Iy|]. split; [now apply make_in in Iy|exact Ky].
    - exfalso. apply get_none in E. apply E. apply in_map. now apply -> in_rev.
  Qed.
  Lemma enum_listed c q : In c refs -> is_enum_cls env c = true -> o_enum o = EmType -> class_qid o c = Ok q -> exists e, In (fst c, e) ets /\ e_name e = q.
  Proof.
    intros Ic Ee OE Q. unfold enum_types in HE. rewrite OE in HE. binds HE. injection HE as HE'. rewrite <- HE'.
    unfold is_enum_cls in Ee. destruct (env c) as [|vs|] eqn:K; try discriminate.
    assert (J : In c (sort_names (filter (is_enum_cls env) refs))) by (rewrite sort_names_in; apply filter_In; unfold is_enum_cls; rewrite K; auto).
    apply map_res_all2 in E. destruct (all2_in_l _ _ _ _ E J) as (l & Il & El). simpl in El. rewrite K in El.
    pose proof (ot_members _ _ _ HT c vs OE Ic K) as M. destruct (Nat.ltb (length vs) 2) eqn:L; [apply Nat.ltb_lt in L; lia|].
    binds El. injection El as <-. unfold class_qid, qualified_id_of in Q. rewrite E0 in Q. simpl in Q. rewrite (ot_qualified _ _ _ HT (or_introl OE)) in Q. injection Q as <-.
    eexists. split; [apply in_concat; eexists; split; [exact Il|left; reflexivity]|reflexivity].
  Qed.
  Lemma enum_named m e : In (m, e) ets -> exists k n, ns_get o m = Ok k /\ e_name e = Qualified k n.
  Proof.
    intros I. unfold enum_types in HE. destruct (o_enum o); try (injection HE as <-; destruct I). binds HE. injection HE as HE'. rewrite <- HE' in I.
    destruct (in_concat_ok _ _ _ _ E I) as (c & l & Ic & El & Il). destruct (env c); try (injection El as <-; destruct Il).
    destruct (Nat.ltb _ 2); [injection El as <-; destruct Il|]. binds El. injection El as <-. destruct Il as [Il|[]]. injection Il as <- <-. eexists _, _. split; [eassumption|reflexivity].
  Qed.
  Lemma struct_listed c q : In c refs -> is_struct_cls env c = true -> o_struct o = SmType -> class_qid o c = Ok q -> exists s, In (fst c, s) sts /\ s_name s = q.
  Proof.
    intros Ic Ee OS Q. unfold struct_types in HS. rewrite OS in HS. apply map_res_all2 in HS.
    assert (J : In c (topo (sort_names (filter (is_struct_cls env) refs)))) by (apply TP; rewrite sort_names_in; apply filter_In; auto).
    destruct (all2_in_l _ _ _ _ HS J) as (p & Ip & Ep). binds Ep. injection Ep as <-. exists v. split; [exact Ip|].
    unfold dataclass_to_struct in E. destruct (env c); try discriminate. binds E. binds E. injection E as <-. simpl. congruence.
  Qed.
  Lemma struct_named m s : In (m, s) sts -> exists k n, ns_get o m = Ok k /\ s_name s = Qualified k n.
  Proof.
    intros I. unfold struct_types in HS. destruct (o_struct o) eqn:OS; try (injection HS as <-; destruct I). apply map_res_all2 in HS.
    destruct (all2_in_r _ _ _ _ HS I) as (c & Ic & Ec). binds Ec. injection Ec as <- <-. unfold dataclass_to_struct in E. destruct (env c); try discriminate.
    binds E. binds E. injection E as <-. simpl. unfold class_qid, qualified_id_of in E1. binds E1. rewrite (ot_qualified _ _ _ HT (or_intror OS)) in E1. injection E1 as <-. eauto.
  Qed.

  Theorem closed_types cat : make_catalog o (multi_of ets) (multi_of sts) (multi_of ts) = Ok cat -> types_closed cat.
  Proof.
    intros H n s q In_ U D. assert (Kq : known q).
    { destruct D as [(t & It & c & Ic & <-)|(u & Iu & mb & Im & <-)].
      - destruct (catalog_tables o ts _ _ _ _ _ H In_ It) as (m & Im). eapply tables_known; eauto.
      - assert (X : exists m, In (m, u) sts).
        { unfold make_catalog in H. destruct (o_qualified o).
          - binds H. injection H as <-. apply make_in in In_.
            apply map_res_all2 in E. destruct (all2_in_r _ _ _ _ E In_) as ([m g] & Ig & Eg). binds Eg. injection Eg as <-.
            cbn [n_structs make_ns] in Iu. apply make_in, multi_get_in, multi_of_in in Iu. eauto.
          - injection H as <-. destruct In_ as [<-|[]]. cbn [n_structs make_ns] in Iu. apply make_in, in_concat in Iu as (g & Ig & Iu).
            apply in_map_iff in Ig as ([m g'] & <- & Ig). exists m. apply multi_of_in. exists g'. auto. }
        destruct X as (m & X). eapply structs_known; eauto. }
    destruct Kq as [Kq|(c & Ic & Q & Kq)]; [auto|]. right.
    assert (OQ : o_qualified o = true) by (apply (ot_qualified _ _ _ HT); tauto).
    destruct (ot_modules _ _ _ HT c Ic) as (en & Ie & Ee & Fe). clear n s U D In_.
    assert (EE : is_entity_cls env en = true).
    { destruct Ee as (fs & a & d & ps & K & f & If & KF). unfold is_entity_cls. rewrite K. unfold has_key, fields_of. rewrite K. apply existsb_exists. exists f. split; [exact If|].
      destruct KF as (t & ms & F & Im). unfold is_primary_key_type. rewrite F. simpl. apply existsb_exists. exists MPrimary. split; [exact Im|now apply meta_eqb_eq]. }
    pose proof HTs as HT2. unfold all_tables in HT2. binds HT2. binds HT2. binds HT2. clear HT2.
    destruct (tables_exist env o refs fuel ts v1 E1 HTs en Ie (or_introl EE)) as (t & It & _). rewrite Fe in It.
    apply multi_of_in in It as (g & Ig & _). unfold make_catalog in H. rewrite OQ in H. binds H. injection H as <-.
    apply map_res_all2 in E2. destruct (all2_in_l _ _ _ _ E2 Ig) as (ns & Ins & Ens). binds Ens. injection Ens as <-. cbn [fst snd] in E3, Ins.
    exists (make_ns (or_empty v3) (multi_get (fst c) (multi_of ets)) (multi_get (fst c) (multi_of sts)) g). split; [|split].
    - apply make_keep; [exact Ins|]. intros y Iy Ky. destruct (all2_in_r _ _ _ _ E2 Iy) as ([m' g'] & Ig' & Eg'). binds Eg'. injection Eg' as <-.
      cbn [n_name make_ns fst snd] in Ky, E4. apply ns_in in E3, E4. destruct (ord_schemas _ _ _ HO _ _ _ _ E4 E3 Ky) as [-> ->]. cbn [fst snd].
      now rewrite (group_unique _ _ _ _ (multi_of_keys ts) Ig' Ig).
    - unfold class_qid, qualified_id_of in Q. rewrite E3 in Q. simpl in Q. rewrite OQ in Q. injection Q as <-. reflexivity.
    - destruct Kq as [[Ee' OE]|[St OS]].
      + left. destruct (enum_listed c q Ic Ee' OE Q) as (e & Ien & Ne). apply multi_of_in in Ien.
        apply (multi_get_complete _ _ _ (multi_of_keys ets)) in Ien. destruct (make_key e_key _ _ Ien) as (y & Iy & Iy' & Ky).
        exists y. split; [exact Iy|]. apply multi_get_in, multi_of_in in Iy'. destruct (enum_named _ _ Iy') as (k & nm & G1 & G2).
        unfold class_qid, qualified_id_of in Q. rewrite G1 in Q. simpl in Q. rewrite OQ in Q. injection Q as <-.
        unfold e_key in Ky. rewrite G2, Ne in Ky. simpl in Ky. rewrite G2. now subst.
      + right. destruct (struct_listed c q Ic St OS Q) as (e & Ien & Ne). apply multi_of_in in Ien.
        apply (multi_get_complete _ _ _ (multi_of_keys sts)) in Ien. destruct (make_key s_key _ _ Ien) as (y & Iy & Iy' & Ky).
        exists y. split; [exact Iy|]. apply multi_get_in, multi_of_in in Iy'. destruct (struct_named _ _ Iy') as (k & nm & G1 & G2).
        unfold class_qid, qualified_id_of in Q. rewrite G1 in Q. simpl in Q. rewrite OQ in Q. injection Q as <-.
        unfold s_key in Ky. rewrite G2, Ne in Ky. simpl in Ky. rewrite G2. now subst.
  Qed.
End Catalog.

Theorem catalog_types_closed topo cat : (forall l c, In c (topo l) <-> In c l) -> dataclasses_to_catalog env o fuel topo refs = Ok cat -> types_closed cat.
Proof. intros TP H. unfold dataclasses_to_catalog in H. binds H. binds H. binds H. eapply closed_types; eauto. Qed.
End Close6.
