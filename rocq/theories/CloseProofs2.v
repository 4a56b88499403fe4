(** Proofs about closed catalogs, part 2: references made by the tables of classes. *)
From Verif Require Import PyStr QuoteModel ObjectDict ObjectDictProofs Types Objects Compat Convert ConvertSpec ConvertProofs CloseSpec CloseProofs1.
From Coq Require Import Permutation Lia.
Open Scope string_scope.

Section Close2.
Context (env : cid -> classdef) (o : copts) (refs : list cid).
Hypothesis HO : ordinary env o refs.
Hypothesis HC : complete env refs.

Lemma subst_none t c : mentions t c -> subst o t = None.
Proof.
  intros M. destruct (subst o t) eqn:E; [|reflexivity]. apply subst_in in E. exfalso. exact (proj1 (ord_subst _ _ _ HO _ _ E) _ M).
Qed.
Lemma evaluate_cases t u : evaluate t = u -> (exists c, t = YFwd c /\ u = YCls c) \/ (u = t /\ forward_of t = None).
Proof. destruct t; simpl; intros <-; eauto. Qed.

Lemma class_sql n t c s : unwrap t = YCls c -> entity_of env t = Some c -> member_sql env o n t = Ok s ->
  exists k m, key_type_of env c = Ok k /\ member_sql env o m k = Ok s.
Proof.
  intros U E H. destruct n; [discriminate|]. simpl in H. rewrite (subst_none t c) in H by (apply mentions_unwrap; rewrite U; constructor).
  assert (S : is_simple env t = false).
  { apply entity_dataclass in E as [D _]. unfold dataclass_of in D. rewrite U in D.
    destruct (env c) eqn:K; try discriminate. destruct t; simpl in U; try discriminate; subst; simpl; unfold is_enum_cls;
      [injection U as ->|]; now rewrite K. }
  rewrite S, E in H. binds H. eauto.
Qed.
(** a reference to an entity has the type of the key *)
Lemma entity_field_type n f r s : entity_of env (required_type f) = Some r -> member_sql env o n (field_type (field_properties (f_type f))) = Ok s ->
  exists k m, key_type_of env r = Ok k /\ member_sql env o m k = Ok s.
Proof.
  unfold required_type. intros E H. destruct (evaluate_cases (field_type (field_properties (f_type f))) _ eq_refl) as [(c & F & G)|(G & _)].
  - rewrite G in E. pose proof (entity_unwrap _ _ _ E) as U. simpl in U. injection U as ->.
    rewrite F in H. destruct n; [discriminate|]. simpl in H. rewrite (subst_none _ r) in H by constructor.
    apply (class_sql n (YCls r)); auto.
  - rewrite G in E. eapply class_sql; eauto. now apply entity_unwrap in E.
Qed.
Lemma enum_cls_sql n t c s : o_enum o = EmRelation -> unwrap t = YCls c -> is_enum_cls env c = true -> member_sql env o n t = Ok s -> enum_key_sql o = Ok s.
Proof.
  intros M U E H. destruct n; [discriminate|]. simpl in H.
  assert (N : subst o t = None) by (apply (subst_none t c); apply mentions_unwrap; rewrite U; constructor).
  rewrite N in H.
  assert (S : is_simple env t = true) by (destruct t; simpl in U; try discriminate; subst; simpl; auto; injection U as ->; auto).
  rewrite S in H. unfold simple_sql in H. binds H.
  assert (V : v = None).
  { unfold value_sql in E0. rewrite N in E0. assert (B : basic_sql t = None) by (destruct t; simpl in U; try discriminate; reflexivity).
    rewrite B in E0. assert (X : fixed_sql o t = None).
    { unfold fixed_sql, same_object.
      assert (Y : forall ms, py_eqb t (YAnn YInt ms) = false /\ py_eqb t (YAnn YFloat ms) = false).
      { intros ms. split; (destruct (py_eqb t _) eqn:Q; [apply py_eqb_eq in Q; subst; discriminate|reflexivity]). }
      unfold py_int8, py_int16, py_int32, py_int64, py_uint8, py_uint16, py_uint32, py_uint64, py_float32, py_float64, int_type.
      rewrite !(proj1 (Y _)), !(proj2 (Y _)). reflexivity. }
    rewrite X in E0. destruct (metadata t) eqn:MT; [congruence|]. rewrite U in E0.
    assert (A : annotated_base o (YCls c) = None) by (unfold annotated_base; rewrite (subst_none _ c) by constructor; reflexivity).
    rewrite A in E0. now apply parse_metas_none in E0. }
  rewrite V, U in H. unfold is_enum_cls in E. destruct (env c) as [|vs|]; try discriminate.
  unfold enum_sql in H. binds H. rewrite M in H. now destruct v0.
Qed.
Lemma is_type_enum_inv t : is_type_enum env t = true -> exists c, unwrap t = YCls c /\ is_enum_cls env c = true.
Proof. unfold is_type_enum. destruct (unwrap t); try discriminate. eauto. Qed.
Lemma enum_field_type n f s : o_enum o = EmRelation -> is_type_enum env (required_type f) = true ->
  member_sql env o n (field_type (field_properties (f_type f))) = Ok s -> enum_key_sql o = Ok s.
Proof.
  unfold required_type. intros M E H. destruct (evaluate_cases (field_type (field_properties (f_type f))) _ eq_refl) as [(c & F & G)|(G & _)].
  - rewrite G in E. simpl in E. unfold is_type_enum in E. simpl in E.
    rewrite F in H. destruct n; [discriminate|]. simpl in H. rewrite (subst_none _ c) in H by constructor.
    eapply enum_cls_sql; eauto. reflexivity.
  - rewrite G in E. apply is_type_enum_inv in E as (c & U & E). eapply enum_cls_sql; eauto.
Qed.

(** unions *)
Lemma union_inv t : is_union t = true -> exists l, unwrap t = YUnion l /\ union_members t = l.
Proof. unfold is_union, union_members. destruct (unwrap t); try discriminate. eauto. Qed.
Lemma union_facts t l : unwrap t = YUnion l -> (forall x, In x l -> x <> YNone) ->
  is_simple env t = false /\ entity_of env t = None /\ dataclass_of env t = None /\ forward_of t = None /\ literals_of t = None /\ items_of t = None.
Proof.
  intros U N. unfold entity_of, dataclass_of, literals_of, items_of. rewrite U. split.
  - assert (X : existsb is_none l = false).
    { destruct (existsb is_none l) eqn:B; [|reflexivity]. apply existsb_exists in B as (x & I & P). destruct x; try discriminate. now apply N in I. }
    destruct t; simpl in U; try discriminate; subst; simpl; [now rewrite X|]. injection U as ->. now rewrite X.
  - repeat split. destruct t; simpl in U; try discriminate; reflexivity.
Qed.
Lemma extensible_field_type n f e s : is_extensible env (required_type f) = true -> extensible_enum env (required_type f) = Ok e ->
  member_sql env o n (field_type (field_properties (f_type f))) = Ok s -> enum_key_sql o = Ok s.
Proof.
  unfold required_type. intros X E H. pose proof X as X0. unfold is_extensible in X. apply andb_prop in X as [U F].
  destruct (evaluate_cases (field_type (field_properties (f_type f))) _ eq_refl) as [(c & _ & G)|(G & _)]; [rewrite G in U; discriminate|]. rewrite G in *. clear G.
  set (t := field_type (field_properties (f_type f))) in *.
  apply union_inv in U as (l & U & ML). rewrite ML in F. 
  assert (N : forall x, In x l -> x <> YNone).
  { intros x I ->. apply forallb_forall with (x := YNone) in F; auto. discriminate. }
  destruct (union_facts t l U N) as (F1 & F2 & F3 & F4 & F5 & F6).
  destruct n; [discriminate|]. simpl in H.
  assert (M : mentions t e).
  { unfold extensible_enum in E. destruct (find _ _) as [u|] eqn:Q; [|discriminate]. apply find_some in Q as [I _].
    destruct (unwrap u) eqn:Uu; try discriminate. injection E as ->. apply in_map_iff in I as (x & <- & I).
    apply (mentions_members env t x); auto. apply mentions_evaluate. apply mentions_unwrap. rewrite Uu. constructor. }
  now rewrite (subst_none t e M), F1, F2, F3, F4, F5, F6, X0 in H.
Qed.
Lemma union_field_type n f s : is_union (required_type f) = true -> forallb (is_entity env) (map evaluate (union_members (required_type f))) = true ->
  member_sql env o n (field_type (field_properties (f_type f))) = Ok s ->
  forall x r, In x (map evaluate (union_members (required_type f))) -> entity_of env x = Some r ->
  exists k m, key_type_of env r = Ok k /\ member_sql env o m k = Ok s.
Proof.
  unfold required_type. intros U F H x r I E.
  destruct (evaluate_cases (field_type (field_properties (f_type f))) _ eq_refl) as [(c & _ & G)|(G & _)]; [rewrite G in U; discriminate|]. rewrite G in *. clear G.
  set (t := field_type (field_properties (f_type f))) in *. pose proof U as U0.
  apply union_inv in U as (l & U & ML).
  assert (N : forall y, In y l -> y <> YNone).
  { intros y J ->. rewrite forallb_forall in F. specialize (F YNone). rewrite ML in F. discriminate F. apply in_map_iff. exists YNone. auto. }
  destruct (union_facts t l U N) as (F1 & F2 & F3 & F4 & F5 & F6).
  destruct n; [discriminate|]. simpl in H.
  assert (M : mentions t r).
  { apply in_map_iff in I as (y & <- & J). apply (mentions_members env t y); auto. apply mentions_evaluate. now apply (entity_mentions env). }
  assert (NX : is_extensible env t = false).
  { unfold is_extensible. rewrite U0. simpl. apply in_map_iff in I as (y & <- & J).
    destruct (forallb _ (union_members t)) eqn:Q; [|reflexivity]. exfalso. rewrite forallb_forall in Q. specialize (Q y J). cbv zeta in Q.
    pose proof (entity_unwrap _ _ _ E) as V. rewrite V in Q. unfold is_type_enum in Q. simpl in Q.
    apply entity_dataclass in E as [E _]. unfold dataclass_of in E. rewrite V in E. unfold is_enum_cls in Q. destruct (env r); discriminate. }
  rewrite (subst_none t r M), F1, F2, F3, F4, F5, F6, NX, U0, F in H. binds H.
  apply map_res_all2 in E0. destruct (all2_in_l _ _ _ _ E0 I) as (k & Ik & Ek). rewrite E in Ek. exists k.
  destruct v as [|k0 ks]; [discriminate|]. destruct (forallb (py_eqb k0) ks) eqn:Q; [|discriminate].
  exists n. split; [exact Ek|]. destruct Ik as [-> |Ik]; [exact H|]. rewrite forallb_forall in Q. apply Q, py_eqb_eq in Ik. now subst.
Qed.

(** ** Tables of classes *)
Lemma column_name_type fuel ps f c : member_column env o fuel ps f = Ok c ->
  c_name c = f_name f /\ member_sql env o fuel (field_type (field_properties (f_type f))) = Ok (c_type c).
Proof. unfold member_column. intros H. binds H. binds H. injection H as <-. simpl. auto. Qed.
Lemma make_in {A} (key : A -> string) l x : In x (od_make key l) -> In x l.
Proof.
  unfold od_make.
  assert (G : forall m d, In x (fold_left (fun d y => od_set key y d) m d) -> In x d \/ In x m).
  { intros m. induction m as [|y m IH]; simpl; intros d H; [auto|]. apply IH in H as [H|H]; auto.
    assert (J : In x (od_set key y d) -> In x d \/ x = y).
    { clear. induction d as [|z d IH]; simpl; [intuition|]. destruct (String.eqb (key z) (key y)); simpl; intuition. }
    apply J in H as [H|H]; auto. }
  intros H. apply G in H as [[]|H]. exact H.
Qed.
Lemma columns_kept cols : NoDup (map c_name cols) -> od_make c_name cols = cols.
Proof. intros H. apply make_id. exact H. Qed.
Lemma names_of fuel ps fs cs : map_res (member_column env o fuel ps) fs = Ok cs -> map c_name cs = map f_name fs.
Proof.
  intros H. apply map_res_all2 in H. induction H as [|f c fs cs H _ IH]; simpl; [reflexivity|].
  apply column_name_type in H as [-> _]. now f_equal.
Qed.
Lemma columns_of fuel c cols : In c refs -> table_columns env o fuel c = Ok cols -> od_make c_name cols = cols.
Proof.
  intros I H. unfold table_columns in H. apply columns_kept. rewrite (names_of _ _ _ _ H). unfold column_fields.
  apply nodup_filter_names. now apply (ord_fields _ _ _ HO).
Qed.
Lemma class_column fuel c t f : In c refs -> dataclass_to_table env o fuel c = Ok t -> In f (data_fields env c) -> relationship env o (f_type f) = None ->
  exists s, member_sql env o fuel (field_type (field_properties (f_type f))) = Ok s /\ has_column t (f_name f) s.
Proof.
  intros Ic H If R. apply table_inv in H as (cols & ks & q & k & H1 & H2 & H3 & H4 & ->).
  pose proof (columns_of _ _ _ Ic H1) as K. unfold table_columns in H1. apply map_res_all2 in H1.
  assert (J : In f (column_fields env o c)) by (unfold column_fields; apply filter_In; rewrite R; auto).
  destruct (all2_in_l _ _ _ _ H1 J) as (col & Il & E). apply column_name_type in E as [E1 E2].
  exists (c_type col). split; [exact E2|]. exists col. unfold make_table. simpl. rewrite K. auto.
Qed.
Lemma key_column fuel c t k n s : In c refs -> dataclass_to_table env o fuel c = Ok t -> key_type_of env c = Ok k -> member_sql env o n k = Ok s ->
  exists name, t_pk t = [name] /\ key_name_of env c = Ok name /\ has_column t name s.
Proof.
  intros Ic H K M. destruct (key_of env c (fun f => ord_keys _ _ _ HO c f Ic) k K) as (f & If & Kn & -> & KF).
  exists (f_name f). pose proof H as T. apply table_inv in T as (cols & ks & q & k & H1 & H2 & H3 & H4 & ->).
  split; [simpl; congruence|]. split; [exact Kn|].
  destruct (relationship env o (f_type f)) as [[b e]|] eqn:R.
  - exfalso. pose proof (relationship_items _ _ _ _ _ R) as [IT X].
    destruct (subst o (field_type (field_properties (f_type f)))) as [s0|] eqn:S0.
    + apply subst_in in S0. apply (ord_subst _ _ _ HO) in S0 as [_ S0].
      unfold items_of in IT. destruct (unwrap (field_type (field_properties (f_type f)))) eqn:W; try discriminate; injection IT as ->;
        [apply (proj1 (S0 e))|apply (proj2 (S0 e))]; rewrite <- W; apply annotated_unwrap.
    + eapply relationship_no_sql; eauto.
  - destruct (class_column _ _ _ _ Ic H If R) as (s' & M' & C). rewrite (member_sql_det _ _ _ _ _ _ _ M M'). exact C.
Qed.
End Close2.
