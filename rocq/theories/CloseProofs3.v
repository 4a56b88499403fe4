(** Proofs about closed catalogs, part 3: every reference of a generated table resolves to a class. *)
From Verif Require Import PyStr QuoteModel ObjectDict ObjectDictProofs Types Objects Compat Convert ConvertSpec ConvertProofs CloseSpec CloseProofs1 CloseProofs2.
From Coq Require Import Permutation Lia.
Open Scope string_scope.

Section Close3.
Context (env : cid -> classdef) (o : copts) (refs : list cid).
Hypothesis HO : ordinary env o refs.
Hypothesis HC : complete env refs.

(** a reference from a column of table [t] to the key of class [r] *)
Definition resolved (es : list cid) (t : table) (cols : list string) (q : qid) (keys : list string) : Prop :=
  exists col key s r, cols = [col] /\ keys = [key] /\ has_column t col s /\ class_qid o r = Ok q /\ In r refs /\
  ((is_entity_cls env r = true /\ key_name_of env r = Ok key /\ exists k n, key_type_of env r = Ok k /\ member_sql env o n k = Ok s) \/
   (In r es /\ is_enum_cls env r = true /\ key = "id" /\ enum_key_sql o = Ok s)).

Lemma entity_cls t r : entity_of env t = Some r -> is_entity_cls env r = true.
Proof.
  intros E. apply entity_dataclass in E as [D K]. unfold dataclass_of in D. unfold is_entity_cls.
  destruct (unwrap t); try discriminate. destruct (env c) eqn:X; try discriminate. injection D as ->. now rewrite X.
Qed.
Lemma list_not_class f b e u : relationship env o (f_type f) = Some (b, e) -> unwrap (required_type f) = u -> (exists x, u = YList x) \/ (exists x, u = YSet x).
Proof.
  intros R <-. apply relationship_items in R as [I _]. unfold required_type.
  destruct (evaluate_cases (field_type (field_properties (f_type f))) _ eq_refl) as [(c & F & _)|(-> & _)].
  - rewrite F in I. discriminate.
  - unfold items_of in I. destruct (unwrap _); try discriminate; eauto.
Qed.
Lemma not_relationship f u : unwrap (required_type f) = u -> (forall x, u <> YList x /\ u <> YSet x) -> relationship env o (f_type f) = None.
Proof.
  intros U N. destruct (relationship env o (f_type f)) as [[b e]|] eqn:R; [|reflexivity].
  destruct (list_not_class _ _ _ _ R U) as [(x & X)|(x & X)]; exfalso; [apply (proj1 (N x))|apply (proj2 (N x))]; exact X.
Qed.
Lemma in_concat_ok {A B} (f : A -> res (list B)) l ls x : map_res f l = Ok ls -> In x (concat ls) -> exists a r, In a l /\ f a = Ok r /\ In x r.
Proof.
  intros H I. apply map_res_all2 in H. apply in_concat in I as (r & Ir & Ix). destruct (all2_in_r _ _ _ _ H Ir) as (a & Ia & E). eauto.
Qed.

Section Class.
  Context (fuel : nat) (c : cid) (t : table).
  Hypothesis Hc : In c refs.
  Hypothesis Ht : dataclass_to_table env o fuel c = Ok t.

  Lemma reference_resolved es f ks k cols q keys : In f (data_fields env c) -> field_reference env o c f = Ok ks -> In k ks -> refers k cols q keys ->
    resolved es t cols q keys.
  Proof.
    intros If H Ik R. unfold field_reference in H. binds H. binds H. injection H as <-. apply in_app_iff in Ik as [Ik|Ik].
    - destruct (entity_of env (required_type f)) as [r|] eqn:En; [|injection E as <-; destruct Ik].
      binds E. binds E. injection E as <-. destruct Ik as [<-|[]]. inversion R; subst. 
      unfold reference_to in E2. binds E2. binds E2. injection E2 as <-. simpl in *.
      pose proof (entity_unwrap _ _ _ En) as U.
      destruct (class_column _ _ _ HO _ _ _ _ Hc Ht If (not_relationship _ _ U ltac:(intros x; split; discriminate))) as (s & M & C).
      eexists (f_name f), _, s, r. split; [reflexivity|]. split; [reflexivity|]. split; [exact C|]. split; [eassumption|]. split.
      + apply (HC c f r Hc If). apply (required_mentions env). now apply (entity_mentions env).
      + left. split; [now apply entity_cls in En|]. split; [eassumption|]. eapply (entity_field_type env o refs HO); eauto.
    - destruct (is_union (required_type f)) eqn:Un; [|injection E0 as <-; destruct Ik].
      destruct (forallb (is_entity env) (map evaluate (union_members (required_type f)))) eqn:Fa; [|injection E0 as <-; destruct Ik].
      binds E0. binds E0. injection E0 as <-. destruct Ik as [<-|[]]. inversion R as [|n cs rs qq kk J]; subst. 
      apply map_res_all2 in E2. destruct (all2_in_r _ _ _ _ E2 J) as (x & Ix & Ex). clear E2.
      destruct (entity_of env x) as [r|] eqn:En; [|discriminate]. unfold reference_to in Ex. binds Ex. binds Ex. injection Ex as <- <-.
      destruct (union_inv _ Un) as (l & U & _).
      destruct (class_column _ _ _ HO _ _ _ _ Hc Ht If (not_relationship _ _ U ltac:(intros y; split; discriminate))) as (s & M & C).
      eexists (f_name f), _, s, r. split; [reflexivity|]. split; [reflexivity|]. split; [exact C|]. split; [assumption|]. split.
      + apply (HC c f r Hc If). apply (required_mentions env). apply in_map_iff in Ix as (y & <- & Iy).
        apply (mentions_members env _ y _ Iy), mentions_evaluate. now apply (entity_mentions env).
      + left. split; [now apply entity_cls in En|]. split; [assumption|]. eapply (union_field_type env o refs HO); eauto.
  Qed.

  Lemma class_resolved es k cols q keys :
    (forall f, In f (data_fields env c) -> is_extensible env (required_type f) = true -> forall e, extensible_enum env (required_type f) = Ok e -> In e es) ->
    (forall f e, o_enum o = EmRelation -> In f (data_fields env c) -> unwrap (required_type f) = YCls e -> is_enum_cls env e = true -> In e es) ->
    In k (t_constraints t) -> refers k cols q keys -> resolved es t cols q keys.
  Proof.
    intros X1 X2 Ik R. pose proof Ht as T. apply table_inv in T as (cs & ks & tq & tk & H1 & H2 & H3 & H4 & HT).
    assert (J : In k ks) by (rewrite HT in Ik; simpl in Ik; now apply make_in in Ik).
    unfold table_keys in H2. binds H2. binds H2. binds H2. binds H2. binds H2. injection H2 as <-.
    repeat (apply in_app_iff in J as [J|J]).
    - destruct (o_foreign o) eqn:OF; [|injection E as <-; destruct J]. unfold class_constraints in E. binds E. binds E. injection E as <-.
      apply in_app_iff in J as [J|J].
      + unfold unique_constraints in E4. binds E4. injection E4 as <-. destruct (in_concat_ok _ _ _ _ E J) as (f & r & If & Ef & Ir).
        destruct (p_unique _); [|injection Ef as <-; destruct Ir]. binds Ef. injection Ef as <-. destruct Ir as [<-|[]]. inversion R.
      + rewrite OF in E5. binds E5. injection E5 as <-. destruct (in_concat_ok _ _ _ _ E J) as (f & r & If & Ef & Ir).
        eapply reference_resolved; eauto.
    - unfold extensible_constraints in E0. apply map_res_all2 in E0. destruct (all2_in_r _ _ _ _ E0 J) as (f & If & Ef).
      apply filter_In in If as [If Xf]. binds Ef. unfold enum_reference in Ef. binds Ef. binds Ef. injection Ef as <-. inversion R; subst.
      pose proof Xf as U. unfold is_extensible in U. apply andb_prop in U as [U _]. destruct (union_inv _ U) as (l & U' & _).
      destruct (class_column _ _ _ HO _ _ _ _ Hc Ht If (not_relationship _ _ U' ltac:(intros y; split; discriminate))) as (s & M & C).
      exists (f_name f), "id", s, v4. split; [reflexivity|]. split; [reflexivity|]. split; [exact C|]. split; [assumption|].
      assert (F : mentions (required_type f) v4 /\ is_enum_cls env v4 = true).
      { unfold extensible_enum in E4. destruct (find _ _) as [u|] eqn:Q; [|discriminate]. apply find_some in Q as [Iu Q].
        destruct (is_type_enum_inv env u Q) as (e & Ue & Ee). rewrite Ue in E4. injection E4 as <-. split; [|exact Ee].
        apply in_map_iff in Iu as (y & <- & Iy). apply (mentions_members env _ y _ Iy), mentions_evaluate, mentions_unwrap. rewrite Ue. constructor. }
      split; [apply (HC c f v4 Hc If); now apply (required_mentions env)|]. right. split; [eapply X1; eauto|]. split; [apply F|]. split; [reflexivity|].
      eapply (extensible_field_type env o refs HO); eauto.
    - destruct (o_enum o) eqn:OE; try (injection E1 as <-; destruct J). unfold enum_constraints in E1. apply map_res_all2 in E1.
      destruct (all2_in_r _ _ _ _ E1 J) as (f & If & Ef). unfold enum_fields in If. apply filter_In in If as [If Xf].
      binds Ef. unfold enum_reference in Ef. binds Ef. binds Ef. injection Ef as <-. inversion R; subst.
      destruct (is_type_enum_inv env _ Xf) as (e & Ue & Ee). unfold enum_class in E4. rewrite Ue in E4. injection E4 as <-.
      destruct (class_column _ _ _ HO _ _ _ _ Hc Ht If (not_relationship _ _ Ue ltac:(intros y; split; discriminate))) as (s & M & C).
      exists (f_name f), "id", s, e. split; [reflexivity|]. split; [reflexivity|]. split; [exact C|]. split; [assumption|].
      split; [apply (HC c f e Hc If); apply (required_mentions env), mentions_unwrap; rewrite Ue; constructor|].
      right. split; [eapply X2; eauto|]. split; [exact Ee|]. split; [reflexivity|]. eapply (enum_field_type env o refs HO); eauto.
    - destruct (o_enum o); try (injection E2 as <-; destruct J). destruct (o_check o); [|injection E2 as <-; destruct J].
      unfold enum_checks in E2. apply map_res_all2 in E2. destruct (all2_in_r _ _ _ _ E2 J) as (f & If & Ef).
      binds Ef. binds Ef. injection Ef as <-. inversion R.
    - unfold column_checks in E3. binds E3. injection E3 as <-. destruct (in_concat_ok _ _ _ _ E4 J) as (f & r & If & Ef & Ir).
      destruct (check_condition f); [|injection Ef as <-; destruct Ir]. binds Ef. injection Ef as <-. destruct Ir as [<-|[]]. inversion R.
  Qed.
End Class.
End Close3.
