(** Proofs for C61, part 1: the types of columns can be written. *)
From Verif Require Import PyStr QuoteModel QuoteSpec ObjectDict ObjectDictProofs Types Objects SqlAst Ddl SqlText TextSpec CatTextSpec Compat Convert ConvertSpec ConvertProofs
  CloseSpec CloseProofs1 CloseProofs2 CloseProofs3 CloseProofs4 CloseProofs5 CloseProofs6 WriteSpec.
From Coq Require Import Permutation Lia.
Open Scope string_scope.

Section Write.
Context (d : Ddl.dialect) (env : cid -> classdef) (o : copts) (refs : list cid) (fuel : nat).
Hypothesis HO : ordinary env o refs.
Hypothesis HT : ordinary_types env o refs.
Hypothesis HW : writable d env o refs.

Definition wty (s : sqltype) : Prop := type_ok d s /\ forall vs, base_type s = TEnum vs -> vs <> [] /\ Forall (text_ok d) vs.
Definition leaf (s : sqltype) : Prop := match s with TArray _ | TStruct _ | TSub _ _ | TEnum _ | TUser _ => False | _ => True end.
Lemma leaf_wty s : leaf s -> wty s.
Proof. destruct s; simpl; intros H; try contradiction; split; simpl; auto; discriminate. Qed.
Lemma sub_wty c s : (forall vs, base_type s = TEnum vs -> vs <> [] /\ Forall (text_ok d) vs) -> wty (TSub c s).
Proof. intros H. split; [exact Logic.I|exact H]. Qed.
Lemma same_class_wty t : forall u r, leaf u -> same_class t u = Ok r -> wty r.
Proof.
  induction t; simpl; intros u r L H; try (injection H as <-; now apply leaf_wty).
  destruct c; try discriminate; binds H; injection H as <-; apply sub_wty; eapply IHt; eauto.
Qed.
Lemma compat2_wty l r s : wty l -> compat2 l r = Ok s -> wty s.
Proof.
  unfold compat2. destruct (type_eqb l r); [intros H [= <-]; exact H|]. intros _ H.
  destruct (base_type l), (base_type r); try discriminate; (eapply same_class_wty; [|exact H]); exact Logic.I.
Qed.
Lemma compatible_wty l s : Forall wty l -> compatible_type l = Ok s -> wty s.
Proof.
  destruct l as [|x l]; simpl; [discriminate|]. intros F. apply Forall_inv in F. revert x F.
  induction l as [|y l IH]; simpl; intros x F H; [injection H as <-; exact F|]. binds H. eapply IH; [|exact H]. eapply compat2_wty; eauto.
Qed.
Lemma parse_meta_wty t : forall m r, wty t -> parse_meta t m = Ok r -> wty r.
Proof.
  assert (G : forall t m r, parse_meta t m = Ok r -> forall vs, base_type r <> TEnum vs).
  { clear. induction t; intros m r H vs; simpl in H; try discriminate; try (destruct m; try discriminate; injection H as <-; discriminate).
    binds H. injection H as <-. simpl. eapply IHt; eauto. }
  intros m r W H. destruct t; simpl in H; try discriminate; try (destruct m; try discriminate; injection H as <-; now apply leaf_wty).
  binds H. injection H as <-. apply sub_wty. intros vs B. exfalso. eapply G; eauto.
Qed.

Lemma subst_wty t s : subst o t = Some s -> wty s.
Proof. intros S. apply subst_in in S. destruct (wr_subst _ _ _ _ HW _ _ S) as [A B]. split; [exact A|]. intros vs E. destruct (B vs E). Qed.
Lemma word_wty g w : lex d g = Some [W w] -> is_word clause_words (W w) = false -> wty (TUser (Global g)).
Proof. intros L N. split; [exists w; auto|discriminate]. Qed.
Ltac word := eapply word_wty; [vm_compute; reflexivity|reflexivity].
Lemma value_wty t s : value_sql o t = Ok (Some s) -> wty s.
Proof.
  unfold value_sql. destruct (subst o t) as [s0|] eqn:S; [intros [= <-]; eapply subst_wty; eauto|].
  destruct (basic_sql t) as [s0|] eqn:B.
  { intros [= <-]. unfold basic_sql in B. destruct t; try discriminate; injection B as <-; try (now apply leaf_wty); word. }
  destruct (fixed_sql o t) as [s0|] eqn:F.
  { intros [= <-]. unfold fixed_sql, extra, plain_int in F.
    repeat match type of F with (if ?b then _ else _) = _ => destruct b; [try (injection F as <-; destruct (o_extra o); ((now apply leaf_wty) || word))|] end; try discriminate;
    injection F as <-; now apply leaf_wty. }
  destruct (metadata t) as [|m ms]; [discriminate|].
  assert (A : forall s0, annotated_base o (unwrap t) = Some s0 -> wty s0).
  { intros s0 A. unfold annotated_base in A. destruct (subst o (unwrap t)) eqn:S'; [injection A as <-; eapply subst_wty; eauto|].
    destruct (unwrap t); try discriminate; injection A as <-; now apply leaf_wty. }
  revert A. generalize (annotated_base o (unwrap t)), (m :: ms). clear. intros b l. revert b.
  induction l as [|m l IH]; simpl; intros b A H; [injection H as ->; eauto|].
  destruct (o_skip o m); [eapply IH; eauto|]. destruct b as [b|]; [|discriminate]. binds H. eapply IH; [|exact H].
  intros s0 [= <-]. eapply parse_meta_wty; [apply (A b eq_refl)|eauto].
Qed.
Lemma scalar_wty t s : scalar_sql o t = Ok s -> wty s.
Proof. unfold scalar_sql. intros H. binds H. destruct v; [|discriminate]. injection H as <-. eapply value_wty; eauto. Qed.
Lemma class_qid_ok c q : class_qid o c = Ok q -> name_ok q.
Proof. unfold class_qid, qualified_id_of. intros H. binds H. injection H as <-. now destruct (o_qualified o). Qed.
Lemma qid_of_ok m n q : qualified_id_of o m n = Ok q -> name_ok q.
Proof. unfold qualified_id_of. intros H. binds H. injection H as <-. now destruct (o_qualified o). Qed.
Lemma user_wty c q : class_qid o c = Ok q -> wty (TUser q).
Proof. intros H. apply class_qid_ok in H. split; [|discriminate]. destruct q; [exact Logic.I|exact Logic.I|destruct H]. Qed.
Lemma array_wty s : wty s -> wty (TArray s).
Proof. intros [H _]. split; [exact H|discriminate]. Qed.
Lemma value_type_some vs vt : enum_value_type vs = Ok vt -> vs <> [].
Proof. unfold enum_value_type. destruct vs; [discriminate|discriminate]. Qed.
Lemma simple_wty t s : (forall c, mentions t c -> In c refs) -> simple_sql env o t = Ok s -> wty s.
Proof.
  intros G H. unfold simple_sql in H. binds H. destruct v as [v|]; [injection H as <-; eapply value_wty; eauto|].
  destruct (unwrap t) eqn:W; try discriminate. destruct (env c) eqn:K; try discriminate.
  assert (Ic : In c refs) by (apply G; apply mentions_unwrap; rewrite W; constructor).
  unfold enum_sql in H. binds H.
  assert (I : wty (TEnum (map ev_text members))).
  { assert (F : Forall (text_ok d) (map ev_text members)).
    { apply Forall_forall. intros x X. apply in_map_iff in X as (e & <- & Ie). apply (wr_labels _ _ _ _ HW c members e Ic K Ie). }
    split; [exact F|]. simpl. intros vs [= <-]. split; [|exact F]. apply value_type_some in E0. destruct members; [congruence|discriminate]. }
  destruct v; destruct (o_enum o) eqn:OE; try discriminate; try (eapply scalar_wty; exact H);
    try (binds H; injection H as <-; eapply user_wty; eassumption); injection H as <-; exact I.
Qed.

Lemma member_wty n : forall t s, good env o refs t -> member_sql env o n t = Ok s -> wty s.
Proof.
  induction n as [|n IH]; intros t s G H; [discriminate|]. cbn [member_sql] in H.
  assert (J : good env o refs YJson) by (apply good_leaf; intros x M; inversion M).
  destruct (subst o t) as [s0|] eqn:S; [injection H as <-; eapply subst_wty; eauto|].
  destruct (is_simple env t) eqn:Si; [eapply simple_wty; [|exact H]; intros c M; now apply (proj1 G)|].
  destruct (entity_of env t) as [c|] eqn:En.
  { binds H. eapply IH; [|exact H]. eapply key_good; eauto. apply G. now apply (entity_mentions env). }
  destruct (dataclass_of env t) as [c|] eqn:Da.
  { destruct (o_struct o) eqn:OS; [binds H; injection H as <-; eapply user_wty; eassumption|destruct (wr_inline _ _ _ _ HW OS)|eapply IH; [exact J|exact H]]. }
  destruct (forward_of t) as [c|] eqn:Fo.
  { destruct t; try discriminate. injection Fo as ->. eapply IH; [|exact H]. eapply good_cls; [exact G|constructor]. }
  destruct (literals_of t) as [vs|] eqn:Li.
  { destruct (forallb _ vs).
    - eapply compatible_wty; [|exact H]. apply Forall_forall. intros x I. apply in_map_iff in I as (y & <- & _). now apply leaf_wty.
    - binds H. eapply compatible_wty; [|exact H]. apply Forall_forall. intros x I. apply map_res_all2 in E. destruct (all2_in_r _ _ _ _ E I) as (y & _ & Ey).
      destruct (literal_type y) as [u|] eqn:L; [|discriminate]. eapply IH; [|exact Ey].
      apply good_leaf; intros x' M; destruct y; try discriminate; injection L as <-; inversion M. }
  destruct (items_of t) as [e|] eqn:It.
  { assert (Ge : forall c, mentions e c -> In c refs).
    { intros x M. apply (proj1 G). apply mentions_unwrap. unfold items_of in It. destruct (unwrap t); try discriminate; injection It as ->; now constructor. }
    destruct (is_simple env e) eqn:Se.
    - destruct (o_array o); try discriminate; [|eapply IH; [exact J|exact H]]. binds H. injection H as <-. apply array_wty. eapply simple_wty; eauto.
    - destruct (is_entity env e) eqn:Ee; [discriminate|]. destruct (class_of e) as [c|] eqn:Ce; [|discriminate].
      destruct (o_array o) eqn:OA; try discriminate; [|eapply IH; [exact J|exact H]]. binds H. injection H as <-. apply array_wty. eapply user_wty; eassumption. }
  destruct (is_extensible env t); [eapply scalar_wty; exact H|]. destruct (is_union t) eqn:Un.
  { destruct (forallb (is_entity env) _) eqn:Fa.
    - binds H. destruct v as [|k r]; [discriminate|]. destruct (forallb (py_eqb k) r); [|discriminate]. eapply IH; [|exact H].
      apply map_res_all2 in E. destruct (all2_in_r _ _ _ k E (or_introl eq_refl)) as (x & Ix & Ex). destruct (entity_of env x) as [c|] eqn:Ec; [|discriminate].
      eapply key_good; eauto. apply (good_member env o refs t x G Ix). now apply (entity_mentions env).
    - binds H. eapply compatible_wty; [|exact H]. apply Forall_forall. intros x I. apply map_res_all2 in E. destruct (all2_in_r _ _ _ _ E I) as (y & Iy & Ey).
      eapply IH; [|exact Ey]. exact (good_member env o refs t y G Iy). }
  destruct (class_of t) as [c|] eqn:Ct; [|discriminate]. binds H. injection H as <-. eapply user_wty; eassumption.
Qed.
End Write.
