(** Proofs about closed catalogs, part 1: types of columns and keys. *)
From Verif Require Import PyStr QuoteModel ObjectDict ObjectDictProofs Types Objects Compat Convert ConvertSpec ConvertProofs CloseSpec.
From Coq Require Import Permutation Lia.
Open Scope string_scope.

Section Close.
Context (env : cid -> classdef) (o : copts).

Lemma map_res_impl {A B} (f g : A -> res B) : (forall x y, f x = Ok y -> g x = Ok y) -> forall l r, map_res f l = Ok r -> map_res g l = Ok r.
Proof.
  intros H l. induction l as [|x l IH]; simpl; intros r E; [exact E|].
  destruct (f x) eqn:Ef; [|discriminate]. apply H in Ef. rewrite Ef. simpl in *.
  destruct (map_res f l) eqn:Em; [|discriminate]. rewrite (IH _ eq_refl). exact E.
Qed.

(** more fuel does not change a result *)
Lemma member_sql_mono n : forall t s, member_sql env o n t = Ok s -> member_sql env o (S n) t = Ok s.
Proof.
  induction n as [|n IH]; intros t s; [discriminate|].
  intros H. remember (S n) as m eqn:Em. rewrite Em in H. simpl in H. simpl. 
  destruct (subst o t); [exact H|]. destruct (is_simple env t); [exact H|].
  destruct (entity_of env t).
  { binds H. rewrite E. simpl. subst m. now apply IH. }
  destruct (dataclass_of env t).
  { destruct (o_struct o); [exact H| |subst m; now apply IH].
    binds H. erewrite map_res_impl; [exact H| |exact E].
    intros f y Hf. cbv beta zeta in *. binds Hf. subst m. rewrite (IH _ _ E0). exact Hf. }
  destruct (forward_of t); [subst m; now apply IH|].
  destruct (literals_of t).
  { destruct (forallb _ l); [exact H|]. binds H.
    erewrite map_res_impl; [exact H| |exact E].
    intros x y Hx. cbv beta in *. destruct (literal_type x); [|exact Hx]. subst m. now apply IH. }
  destruct (items_of t).
  { destruct (is_simple env p); [destruct (o_array o); try exact H; subst m; now apply IH|].
    destruct (is_entity env p); [exact H|]. destruct (class_of p); [|exact H].
    destruct (o_array o); try exact H; subst m; now apply IH. }
  destruct (is_extensible env t); [exact H|]. destruct (is_union t); [|exact H].
  destruct (forallb (is_entity env) _).
  { binds H. rewrite E. simpl in *. destruct v; [exact H|]. destruct (forallb _ v); [|exact H]. subst m. now apply IH. }
  binds H. erewrite map_res_impl; [exact H| |exact E].
  intros x y Hx. subst m. now apply IH.
Qed.
Lemma member_sql_more n m t s : (n <= m)%nat -> member_sql env o n t = Ok s -> member_sql env o m t = Ok s.
Proof. induction 1; auto. intros H1. apply member_sql_mono. auto. Qed.
Lemma member_sql_det n m t s u : member_sql env o n t = Ok s -> member_sql env o m t = Ok u -> s = u.
Proof.
  intros A B. destruct (Nat.le_ge_cases n m) as [L|L].
  - apply (member_sql_more _ m) in A; [congruence|exact L].
  - apply (member_sql_more _ n) in B; [congruence|exact L].
Qed.

(** ** Classes in types *)
Lemma mentions_unwrap t c : mentions (unwrap t) c -> mentions t c.
Proof. destruct t; simpl; auto. now constructor. Qed.
Lemma mentions_mk_ann t ms c : mentions (mk_ann t ms) c -> mentions t c.
Proof.
  unfold mk_ann. destruct ms; auto. destruct t; auto; intros H; inversion H; subst; auto. now constructor.
Qed.
Lemma mentions_mk_union l c : mentions (mk_union l) c -> exists t, In t l /\ mentions t c.
Proof.
  unfold mk_union. destruct l as [|x [|y r]]; intros H.
  - inversion H; subst; simpl in *; tauto.
  - exists x. split; [now left|auto].
  - inversion H; subst. eauto.
Qed.
Lemma mentions_members t x c : In x (union_members t) -> mentions x c -> mentions t c.
Proof.
  unfold union_members. intros I H. apply mentions_unwrap. destruct (unwrap t); simpl in I; try tauto. econstructor; eauto.
Qed.
Lemma mentions_optional t c : mentions (unwrap_optional t) c -> mentions t c.
Proof.
  unfold unwrap_optional. destruct (unwrap t) eqn:E; auto. intros H.
  apply mentions_mk_ann in H. apply mentions_mk_union in H as (x & I & H). apply filter_In in I as [I _].
  apply mentions_unwrap. rewrite E. econstructor; eauto.
Qed.
Lemma mentions_default t c : mentions (drop_default t) c -> mentions t c.
Proof.
  unfold drop_default. destruct (_ && _); auto. intros H. apply mentions_mk_union in H as (x & I & H).
  apply remove_first_in in I. eapply mentions_members; eauto.
Qed.
Lemma mentions_field t c : mentions (field_type (field_properties t)) c -> mentions t c.
Proof.
  unfold field_type, field_properties. simpl. intros H. apply mentions_mk_ann in H. apply mentions_unwrap in H.
  destruct (is_optional _); [apply mentions_optional in H|]; apply mentions_default in H; now apply mentions_unwrap.
Qed.
Lemma mentions_evaluate t c : mentions (evaluate t) c -> mentions t c.
Proof. destruct t; simpl; auto. intros H. inversion H; subst. constructor. Qed.
Lemma mentions_relationship t b e c : relationship env o t = Some (b, e) -> mentions e c -> mentions t c.
Proof.
  unfold relationship. intros H M.
  assert (X : mentions (unwrap (if is_optional t then unwrap_optional t else t)) c).
  { destruct (unwrap (if is_optional t then unwrap_optional t else t)); try discriminate;
      destruct (_ || _); try discriminate; injection H as <- <-; now constructor. }
  apply mentions_unwrap in X. destruct (is_optional t); auto. now apply mentions_optional.
Qed.
Lemma entity_mentions t c : entity_of env t = Some c -> mentions t c.
Proof. intros H. apply entity_unwrap in H. apply mentions_unwrap. rewrite H. constructor. Qed.
Lemma required_mentions f c : mentions (required_type f) c -> mentions (f_type f) c.
Proof. unfold required_type. intros H. now apply mentions_field, mentions_evaluate. Qed.

(** ** Keys *)
Lemma primary_tagged t : p_primary (field_properties t) = true -> tagged MPrimary t.
Proof.
  unfold field_properties. simpl. intros H. apply existsb_exists in H as (m & I & E). apply meta_eqb_eq in E. subst m.
  apply in_app_iff in I as [I|I]; [now apply (metadata_tagged env)|].
  apply unwrap_tagged, (drop_default_tagged env). destruct (is_optional _); [apply (unwrap_optional_tagged env _ _ I)|now apply (metadata_tagged env)].
Qed.
Lemma primary_top f : is_primary_key_type (f_type f) = true -> p_primary (field_properties (f_type f)) = true.
Proof.
  unfold is_primary_key_type, field_properties. simpl. intros H. rewrite existsb_app, H. reflexivity.
Qed.
Definition keys_plain (c : cid) : Prop := forall f, In f (data_fields env c) -> tagged MPrimary (f_type f) -> key_field f.
Lemma fields_same c : fields_of env c = data_fields env c. Proof. reflexivity. Qed.
Lemma find_same {A} (p q : A -> bool) l : (forall x, In x l -> p x = q x) -> find p l = find q l.
Proof. induction l as [|x l IH]; simpl; intros H; [reflexivity|]. rewrite (H x) by now left. destruct (q x); auto. Qed.
Lemma key_of c : keys_plain c -> forall k, key_type_of env c = Ok k ->
  exists f, In f (data_fields env c) /\ key_name_of env c = Ok (f_name f) /\ k = field_type (field_properties (f_type f)) /\ key_field f.
Proof.
  intros K k H. unfold key_type_of in H. rewrite fields_same in H.
  assert (X : find (fun f => p_primary (field_properties (f_type f))) (data_fields env c) = find (fun f => is_primary_key_type (f_type f)) (data_fields env c)).
  { apply find_same. intros f I. destruct (is_primary_key_type (f_type f)) eqn:E; [now apply primary_top|].
    destruct (p_primary _) eqn:P; [|reflexivity]. apply primary_tagged, K in P; [|exact I]. apply (primary_key_type env) in P. congruence. }
  destruct (find _ _) as [f|] eqn:F; [|discriminate]. injection H as <-. exists f.
  symmetry in X. pose proof X as Y. apply find_some in Y as [I P]. split; [exact I|]. split; [|split; [reflexivity|]].
  - unfold key_name_of. rewrite fields_same, X. reflexivity.
  - now apply (primary_key_type env).
Qed.

(** a field that becomes a table of its own has no type *)
Lemma unwrap_mk_ann_plain t ms : unwrap (mk_ann t ms) = unwrap t.
Proof. apply unwrap_mk_ann. now right. Qed.
Lemma relationship_items t b e : relationship env o t = Some (b, e) ->
  items_of (field_type (field_properties t)) = Some e /\ ((match o_array o with AmRelation => true | _ => false end) || is_entity env e = true) .
Proof.
  unfold relationship. intros H.
  remember (unwrap (if is_optional t then unwrap_optional t else t)) as u eqn:U.
  assert (X : (u = YList e \/ u = YSet e) /\ ((match o_array o with AmRelation => true | _ => false end) || is_entity env e = true)).
  { destruct u; try discriminate; destruct (_ || _) eqn:B; try discriminate; injection H as <- <-; auto. }
  destruct X as [X Y]. split; [|exact Y]. clear H Y.
  unfold items_of, field_type. rewrite unwrap_mk_ann_plain. unfold field_properties. simpl.
  assert (P : unwrap (if is_optional (drop_default (unwrap t)) then unwrap_optional (drop_default (unwrap t)) else drop_default (unwrap t)) = u).
  { destruct (is_optional t) eqn:O.
    - unfold is_optional in O. unfold unwrap_optional in U. destruct (unwrap t) as [| | | | | | | | | | | | | | | | | | | |l| | |] eqn:ET; try discriminate.
      rewrite unwrap_mk_ann_plain in U. 
      assert (D : drop_default (YUnion l) = YUnion l).
      { unfold drop_default. destruct (existsb is_default_tag (union_members (YUnion l))) eqn:B; [|now rewrite andb_false_r]. exfalso.
        apply existsb_exists in B as (x & I & Dx). destruct x; try discriminate. simpl in I.
        assert (I' : In YDefault (filter (fun x => negb (is_none x)) l)) by (apply filter_In; auto).
        destruct (filter _ l) as [|y [|z r]]; simpl in *; [tauto| |subst u; destruct X; discriminate].
        destruct I' as [-> |[]]. subst u. simpl in X. destruct X; discriminate. }
      rewrite D. unfold is_optional. simpl. rewrite O. unfold unwrap_optional. simpl. auto.
    - subst u. destruct X as [X|X]; rewrite X in *; simpl; reflexivity. }
  rewrite P. destruct X as [-> | ->]; reflexivity.
Qed.
Lemma items_facts t e : items_of t = Some e -> is_simple env t = false /\ entity_of env t = None /\ dataclass_of env t = None /\ forward_of t = None /\ literals_of t = None.
Proof.
  unfold items_of, entity_of, dataclass_of, literals_of. intros H. destruct t; simpl in *; try discriminate; auto.
  destruct t; simpl in *; try discriminate; auto.
Qed.
Lemma relationship_no_sql t b e n s : relationship env o t = Some (b, e) -> subst o (field_type (field_properties t)) = None ->
  member_sql env o n (field_type (field_properties t)) <> Ok s.
Proof.
  intros R N H. apply relationship_items in R as [I R]. destruct n; [discriminate|]. simpl in H. rewrite N in H.
  destruct (items_facts _ _ I) as (F1 & F2 & F3 & F4 & F5). rewrite F1, F2, F3, F4, F5, I in H.
  destruct (is_simple env e) eqn:SE.
  - destruct (o_array o); try discriminate; simpl in R; apply is_entity_spec in R as (c & A & (fs & a & d & ps & E & _));
      (destruct A as [-> |(ms & ->)]; simpl in SE; unfold is_enum_cls in SE; rewrite E in SE; discriminate).
  - destruct (is_entity env e); [discriminate|]. destruct (class_of e); [|discriminate].
    destruct (o_array o); simpl in R; discriminate.
Qed.
End Close.
