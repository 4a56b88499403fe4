(** Proofs for C61, part 3: the catalog can be written. *)
From Verif Require Import PyStr QuoteModel QuoteSpec ObjectDict ObjectDictProofs Types Objects SqlAst Ddl SqlText TextSpec CatTextSpec Compat Convert ConvertSpec ConvertProofs
  CloseSpec CloseProofs1 CloseProofs2 CloseProofs3 CloseProofs4 CloseProofs5 CloseProofs6 CreateSpec CreateProofs1 CreateProofs2 CreateProofs3 WriteSpec WriteProofs1 WriteProofs2.
From Coq Require Import Permutation Lia.
Open Scope string_scope.

Theorem catalog_text d env o refs fuel topo cat :
  ordinary env o refs -> ordinary_types env o refs -> creatable env o refs -> writable d env o refs ->
  (forall l, Permutation (topo l) l) -> dataclasses_to_catalog env o fuel topo refs = Ok cat -> cat_text d cat.
Proof.
  intros HO HT HR HW TP H. unfold dataclasses_to_catalog in H. binds H. binds H. binds H. rename E into HE, E0 into HS, E1 into HTs. rename v into ets, v0 into sts, v1 into ts.
  pose proof (fun m t => tables_text d env o refs fuel HO HT HW ts m t HTs) as TT.
  assert (EE : forall m e, In (m, e) ets -> enum_text d e).
  { intros m e I. destruct (enum_facts env o refs HT ets HE m e I) as (c & vs & Ic & K & -> & OE & Q & V).
    split; [eapply class_qid_ok; eassumption|]. rewrite V. pose proof (ot_members _ _ _ HT c vs OE Ic K) as L. split; [destruct vs; simpl in *; [lia|discriminate]|].
    apply Forall_forall. intros x X. apply in_map_iff in X as (y & <- & Iy). apply (wr_labels _ _ _ _ HW c vs y Ic K Iy). }
  assert (SS : forall m u, In (m, u) sts -> struct_text d u).
  { intros m u I. destruct (struct_facts env o refs fuel topo sts TP HS m u I) as (c & Ic & Sc & -> & OS & Q & Du & _).
    split; [eapply class_qid_ok; eassumption|]. unfold dataclass_to_struct in Du. destruct (env c) as [fs a x ps| |] eqn:K; try discriminate. binds Du. binds Du. injection Du as <-.
    cbn [s_members]. pose proof (wr_members _ _ _ _ HW c fs a x ps Ic K) as NE. apply map_res_all2 in E. split.
    - intros Z. destruct fs as [|f fs]; [congruence|]. assert (If : In f (fields_of env c)) by (unfold fields_of; rewrite K; now left).
      destruct (all2_in_l _ _ _ _ E If) as (y & Iy & _). destruct (make_key m_name v y Iy) as (y' & I' & _). rewrite Z in I'. destruct I'.
    - intros mb Im. apply make_in in Im. destruct (all2_in_r _ _ _ _ E Im) as (f & If & Ef). binds Ef. injection Ef as <-. cbn [m_type].
      eapply member_wty; [exact HT|exact HW| |exact E1]. apply (good_relevant env o refs HT). eapply rl_class; [exact Ic|]. exact If. }
  intros n In_. destruct (parts env o refs fuel HT topo ets sts ts HE HS cat n H In_) as [(OQ & m & P)|(OQ & -> & -> & Ec & En)].
  - split; [|split; [|split]].
    + intros ->. destruct P as (k & g & K & _ & ->). cbn [n_name make_ns]. destruct k as [k|]; [|reflexivity]. apply (ns_in o) in K. exact (wr_schemas _ _ _ _ HW eq_refl _ _ K).
    + intros e I. eapply EE, part_enum; eauto.
    + intros e I. eapply SS, part_struct; eauto.
    + intros t I. eapply TT, part_table; eauto.
  - rewrite En. split; [reflexivity|]. split; [intros e []|]. split; [intros e []|]. intros t I. cbn [n_tables make_ns] in I. apply make_in in I.
    destruct (concat_in ts t I) as (m & J). eapply TT; eauto.
Qed.
