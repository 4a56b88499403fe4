(** C62: classes are changed: the script that follows, and what it does. *)
From Verif Require Import PyStr QuoteModel QuoteSpec ObjectDict ObjectDictProofs Types Objects SqlAst Ddl SqlText TextSpec CatTextSpec Render DbSpec CatSpec RefSpec MutSpec Mutate TabProofs1 TextProofs1 TextProofs2 SortSpec PropsText PropsDdl PropsMutate
  Compat Convert ConvertDialects ConvertSpec CloseSpec CreateSpec PropsClose PropsCreate RunProofs5 WriteSpec WriteProofs3 PropsWrite GrowSpec GrowProofs1 GrowProofs3 GrowProofs4 GrowProofs5.
From Coq Require Import List Permutation Lia.
From stdpp Require Import gmap strings.
Open Scope string_scope.

(** From the catalog of one set of classes to that of another: the script that [synchronize] executes is read as meant, and
    leads the database of the one to that of the other, where the two are compatible (C13). *)
Theorem C62_changed_classes_script env1 env2 o refs1 refs2 fuel topo1 topo2 cat1 cat2 d m s' t' l text :
  ordinary env1 o refs1 -> ordinary_types env1 o refs1 -> creatable env1 o refs1 -> sorts_structures env1 refs1 topo1 -> writable d env1 o refs1 ->
  ordinary env2 o refs2 -> ordinary_types env2 o refs2 -> creatable env2 o refs2 -> sorts_structures env2 refs2 topo2 -> writable d env2 o refs2 ->
  dataclasses_to_catalog env1 o fuel topo1 refs1 = Ok cat1 -> dataclasses_to_catalog env2 o fuel topo2 refs2 = Ok cat2 ->
  mutate_catalog d m cat1 cat2 = Ok (s', t', l) -> Forall (engine_has d) l -> mutate_text d m cat1 cat2 = Ok (Some text) ->
  exists ps, read d text = Some ps /\ Forall2 (says d) ps l.
Proof.
  intros HO1 HT1 HR1 TS1 HW1 HO2 HT2 HR2 TS2 HW2 H1 H2 M EH T.
  pose proof (catalog_text d env1 o refs1 fuel topo1 cat1 HO1 HT1 HR1 HW1 (proj1 TS1) H1) as X1.
  pose proof (catalog_text d env2 o refs2 fuel topo2 cat2 HO2 HT2 HR2 HW2 (proj1 TS2) H2) as X2.
  exact (C54_mutate_script d m cat1 cat2 s' t' l text X1 X2 M EH T).
Qed.
Print Assumptions C62_changed_classes_script.

Theorem C62_changed_classes_effect_partial env1 env2 o refs1 refs2 fuel topo1 topo2 cat1 cat2 d m s' t' l D :
  ordinary env1 o refs1 -> ordinary_types env1 o refs1 -> creatable env1 o refs1 -> sorts_structures env1 refs1 topo1 ->
  ordinary env2 o refs2 -> ordinary_types env2 o refs2 -> creatable env2 o refs2 -> sorts_structures env2 refs2 topo2 ->
  dataclasses_to_catalog env1 o fuel topo1 refs1 = Ok cat1 -> dataclasses_to_catalog env2 o fuel topo2 refs2 = Ok cat2 ->
  mutate_catalog d m cat1 cat2 = Ok (s', t', l) -> cat_compat d cat1 cat2 ->
  has_cat d cat1 D -> names_free cat1 cat2 D -> (allow_drop_namespace m = true -> own_schemas d cat1 cat2 D) ->
  exists D', exec_all (engine_of d) l D = Some D' /\ outcome d m cat1 cat2 D D'.
Proof.
  intros HO1 HT1 HR1 TS1 HO2 HT2 HR2 TS2 H1 H2 M CC HC NF OS.
  destruct (C59_well_formed env1 o refs1 fuel topo1 cat1 d HO1 HT1 HR1 TS1 H1) as [W1 _].
  destruct (C59_well_formed env2 o refs2 fuel topo2 cat2 d HO2 HT2 HR2 TS2 H2) as [W2 _].
  eapply C13_mutation_outcome_partial; eauto.
Qed.
Print Assumptions C62_changed_classes_effect_partial.

(** ** Added classes

    Classes (and modules) are added to a set of classes, which stay as they are.  The statements that are generated then
    add what is missing: the database afterwards is as if the objects of all classes had been created, and every type
    and table that existed before is the same, whether the generator knows of it or not. *)
Theorem C62_added_classes env o refs1 refs2 fuel topo1 topo2 cat1 cat2 d m s' t' l D :
  incl refs1 refs2 -> List.NoDup refs1 -> ordinary_types env o refs1 -> sorts_structures env refs1 topo1 ->
  ordinary env o refs2 -> ordinary_types env o refs2 -> creatable env o refs2 -> sorts_structures env refs2 topo2 -> prefixed_alike o ->
  dataclasses_to_catalog env o fuel topo1 refs1 = Ok cat1 -> dataclasses_to_catalog env o fuel topo2 refs2 = Ok cat2 ->
  mutate_catalog d m cat1 cat2 = Ok (s', t', l) -> has_cat d cat1 D -> room cat1 cat2 D ->
  let D' := Db (db_schemas D ∪ cat_schemas cat2) (cat_objs d cat2 ∪ db_objs D) in
  exec_all (engine_of d) l D = Some D' /\ forall k x, db_objs D !! k = Some x -> db_objs D' !! k = Some x.
Proof.
  intros HI N HT1 TS1 HO HT2 HR TS2 HP H1 H2 M HC RM D'.
  destruct (C59_well_formed env o refs1 fuel topo1 cat1 d (ordinary_less env o _ _ HI HO) HT1 (creatable_less env o _ _ HI N HR) TS1 H1) as [W1 _].
  destruct (C59_well_formed env o refs2 fuel topo2 cat2 d HO HT2 HR TS2 H2) as [W2 _].
  pose proof (catalog_part env o refs1 refs2 fuel HI HO HT1 HT2 HP topo1 topo2 cat1 cat2 (proj1 TS1) (proj1 TS2) H1 H2) as P.
  split; [exact (grow d cat1 cat2 W1 W2 P m s' t' l D M HC RM)|]. intros k x. exact (grow_keeps d cat1 cat2 W2 P D k x HC RM).
Qed.
Print Assumptions C62_added_classes.

(** The statements that are generated only add: each creates a schema or object that the old catalog does not have, or fills,
    comments on or constrains such an object; none drops, renames or changes anything, whatever the options. *)
Theorem C62_added_only env o refs1 refs2 fuel topo1 topo2 cat1 cat2 d m s' t' l :
  incl refs1 refs2 -> List.NoDup refs1 -> ordinary_types env o refs1 -> sorts_structures env refs1 topo1 ->
  ordinary env o refs2 -> ordinary_types env o refs2 -> creatable env o refs2 -> sorts_structures env refs2 topo2 -> prefixed_alike o ->
  dataclasses_to_catalog env o fuel topo1 refs1 = Ok cat1 -> dataclasses_to_catalog env o fuel topo2 refs2 = Ok cat2 ->
  mutate_catalog d m cat1 cat2 = Ok (s', t', l) -> Forall (only_adds cat1) l.
Proof.
  intros HI N HT1 TS1 HO HT2 HR TS2 HP H1 H2 M.
  destruct (C59_well_formed env o refs1 fuel topo1 cat1 d (ordinary_less env o _ _ HI HO) HT1 (creatable_less env o _ _ HI N HR) TS1 H1) as [W1 _].
  destruct (C59_well_formed env o refs2 fuel topo2 cat2 d HO HT2 HR TS2 H2) as [W2 _].
  pose proof (catalog_part env o refs1 refs2 fuel HI HO HT1 HT2 HP topo1 topo2 cat1 cat2 (proj1 TS1) (proj1 TS2) H1 H2) as P.
  apply List.Forall_forall. intros st J. exact (proj1 (mutation_fine d cat1 cat2 W1 W2 P m s' t' l M st J)).
Qed.
Print Assumptions C62_added_only.

(** They are generated whenever all classes could be created at once, and the script is read as meant, on every engine (also on
    SQL Server and Oracle, which do not have all that a synchronization may write: C54). *)
Theorem C62_added_script env o refs1 refs2 fuel topo1 topo2 cat1 cat2 d m cat' lc text :
  incl refs1 refs2 -> List.NoDup refs1 -> ordinary_types env o refs1 -> sorts_structures env refs1 topo1 ->
  ordinary env o refs2 -> ordinary_types env o refs2 -> creatable env o refs2 -> sorts_structures env refs2 topo2 -> prefixed_alike o -> writable d env o refs2 ->
  dataclasses_to_catalog env o fuel topo1 refs1 = Ok cat1 -> dataclasses_to_catalog env o fuel topo2 refs2 = Ok cat2 ->
  cat_create d cat2 = Ok (cat', lc) ->
  exists s' t' l, mutate_catalog d m cat1 cat2 = Ok (s', t', l) /\
    (mutate_text d m cat1 cat2 = Ok (Some text) -> exists ps, read d text = Some ps /\ Forall2 (says d) ps l).
Proof.
  intros HI N HT1 TS1 HO HT2 HR TS2 HP HW H1 H2 C.
  pose proof (ordinary_less env o _ _ HI HO) as HO1. pose proof (creatable_less env o _ _ HI N HR) as HR1.
  destruct (C59_well_formed env o refs1 fuel topo1 cat1 d HO1 HT1 HR1 TS1 H1) as [W1 _].
  destruct (C59_well_formed env o refs2 fuel topo2 cat2 d HO HT2 HR TS2 H2) as [W2 _].
  pose proof (catalog_part env o refs1 refs2 fuel HI HO HT1 HT2 HP topo1 topo2 cat1 cat2 (proj1 TS1) (proj1 TS2) H1 H2) as P.
  destruct (grow_succeeds d cat1 cat2 W1 W2 P m cat' lc C) as (s' & t' & l & M). exists s', t', l. split; [exact M|]. intros T.
  pose proof (catalog_text d env o refs2 fuel topo2 cat2 HO HT2 HR HW (proj1 TS2) H2) as X2.
  pose proof (catalog_text d env o refs1 fuel topo1 cat1 HO1 HT1 HR1 (writable_less d env o _ _ HI HW) (proj1 TS1) H1) as X1.
  refine (C54_mutate_script d m cat1 cat2 s' t' l text X1 X2 M _ T).
  apply List.Forall_forall. intros st J. exact (proj2 (mutation_fine d cat1 cat2 W1 W2 P m s' t' l M st J)).
Qed.
Print Assumptions C62_added_script.

(** They can be executed one by one: the schema is consistent after every statement (no column of a missing type, no foreign key
    to a missing table), provided that what a namespace refers to and is new is not in another namespace that existed before. *)
Theorem C62_added_runs env o refs1 refs2 fuel topo1 topo2 cat1 cat2 d m s' t' l D :
  incl refs1 refs2 -> List.NoDup refs1 -> ordinary_types env o refs1 -> sorts_structures env refs1 topo1 ->
  ordinary env o refs2 -> ordinary_types env o refs2 -> creatable env o refs2 -> sorts_structures env refs2 topo2 -> prefixed_alike o ->
  dataclasses_to_catalog env o fuel topo1 refs1 = Ok cat1 -> dataclasses_to_catalog env o fuel topo2 refs2 = Ok cat2 ->
  local_news cat1 cat2 ->
  mutate_catalog d m cat1 cat2 = Ok (s', t', l) -> has_cat d cat1 D -> room cat1 cat2 D -> db_ok D ->
  runs (engine_of d) l D (Db (db_schemas D ∪ cat_schemas cat2) (cat_objs d cat2 ∪ db_objs D)).
Proof.
  intros HI N HT1 TS1 HO HT2 HR TS2 HP H1 H2 LN M HC RM OK.
  destruct (C59_well_formed env o refs1 fuel topo1 cat1 d (ordinary_less env o _ _ HI HO) HT1 (creatable_less env o _ _ HI N HR) TS1 H1) as [W1 _].
  destruct (C59_well_formed env o refs2 fuel topo2 cat2 d HO HT2 HR TS2 H2) as [W2 RC].
  pose proof (catalog_part env o refs1 refs2 fuel HI HO HT1 HT2 HP topo1 topo2 cat1 cat2 (proj1 TS1) (proj1 TS2) H1 H2) as P.
  exact (proj1 (grow_runs d cat1 cat2 D W1 W2 P RC LN HC m s' t' l M RM OK)).
Qed.
Print Assumptions C62_added_runs.

(** The proviso holds if names are prefixed by the schema (MySQL, Oracle): all objects are in one namespace; ... *)
Theorem C62_added_runs_prefixed env o refs fuel topo cat1 cat2 :
  o_qualified o = false -> ordinary env o refs -> ordinary_types env o refs -> sorts_structures env refs topo ->
  dataclasses_to_catalog env o fuel topo refs = Ok cat2 -> local_news cat1 cat2.
Proof.
  intros OQ HO HT TS H.
  assert (one : forall n, In n cat2 -> n_name n = "").
  { pose proof H as H'. unfold dataclasses_to_catalog in H'. repeat (apply bind_inv in H' as (? & _ & H')). unfold make_catalog in H'. rewrite OQ in H'.
    apply Ok_inj in H'. subst cat2. intros n [<-|[]]. reflexivity. }
  assert (FK : foreign_keys_closed cat2) by (eapply C35_foreign_keys_closed; eauto; intros c f q Ic If M; apply (ot_complete _ _ _ HT f q (rl_class _ _ _ c Ic If) M)).
  assert (TC : types_closed cat2).
  { eapply C35_types_closed; eauto. intros l c. split; apply Permutation_in; [|symmetry]; apply (proj1 TS). }
  assert (Z : forall m q, In m cat2 -> n_name m = match scope_id q with Some s => s | None => "" end -> fst (key_of q) = "").
  { intros m q Im E. rewrite (one m Im) in E. unfold key_of. cbn [fst]. destruct (scope_id q); cbn [default]; auto. }
  assert (T : forall n ty q, In n cat2 -> user_ref ty = Some q ->
    (exists t, In t (n_tables n) /\ exists c, In c (t_columns t) /\ c_type c = ty) \/ (exists u, In u (n_structs n) /\ exists x, In x (s_members u) /\ m_type x = ty) -> fst (key_of q) = "").
  { intros n ty q In_ R W. assert (U : CloseSpec.uses ty q) by (revert R; clear; unfold user_ref; induction ty; cbn [base_type]; intros R; try discriminate R; [injection R as ->; constructor|constructor; auto]).
    destruct (TC n ty q In_ U W) as [(g & ->)|(x & Ix & E & _)]; [reflexivity|]. eapply Z; eauto. }
  intros n q In_ U _. right. left. rewrite (one n In_). inversion U; subst.
  - match goal with I : In ?x (n_structs n), J : In ?c (s_members ?x), R : user_ref _ = _ |- _ => apply (T n _ q In_ R); right; exists x; split; [exact I|]; exists c; auto end.
  - match goal with I : In ?x (n_tables n), J : In ?c (t_columns ?x), R : user_ref _ = _ |- _ => apply (T n _ q In_ R); left; exists x; split; [exact I|]; exists c; auto end.
  - destruct (FK n x _ _ q _ In_ H0 H1 (ref_foreign _ _ _ _)) as (t' & (y & Iy & E & _) & _). eapply Z; eauto.
  - match goal with I : In (q, _) _ |- _ => destruct (FK n x _ _ q _ In_ H0 H1 (ref_discr _ _ _ _ _ I)) as (t' & (y & Iy & E & _) & _) end. eapply Z; eauto.
Qed.
Print Assumptions C62_added_runs_prefixed.

(** ... and if the namespaces that existed stay as they are. *)
Theorem C62_added_runs_modules env o refs fuel topo cat1 cat2 :
  ordinary env o refs -> ordinary_types env o refs -> creatable env o refs -> sorts_structures env refs topo ->
  dataclasses_to_catalog env o fuel topo refs = Ok cat2 -> incl cat1 cat2 -> local_news cat1 cat2.
Proof.
  intros HO HT HR TS H HI n q In_ U K. destruct (C59_well_formed env o refs fuel topo cat2 Ddl.DPg HO HT HR TS H) as [W _].
  destruct (in_dec string_dec (fst (key_of q)) (map n_name cat1)) as [J|J]; [left|right; right; exact J].
  apply in_map_iff in J as (a & Ea & Ia). unfold cat_keys in *. apply in_map_iff in K as (q' & Eq & K). apply in_flat_map in K as (m & Im & K).
  pose proof (nw_scope _ _ (cw_ns _ _ W m Im) q' K) as Sc. assert (m = a) as ->.
  { apply (nodup_map_inj n_name cat2 _ _ (cw_names _ _ W) Im (HI _ Ia)). congruence. }
  rewrite <- Eq. apply in_map. apply in_flat_map. eauto.
Qed.
Print Assumptions C62_added_runs_modules.

(** ** Example: the second module of the example of C59 is added. *)
Definition people_refs : list cid := [("m", "Person"); ("m", "Address"); ("m", "Spot"); ("m", "State")].
Lemma people_cases c (P : cid -> Prop) : In c people_refs -> P ("m", "Person") -> P ("m", "Address") -> P ("m", "Spot") -> P ("m", "State") -> P c.
Proof. unfold people_refs. simpl. intros H **. intuition (subst; assumption). Qed.
Lemma people_incl : incl people_refs store_refs.
Proof. intros c I. pattern c. apply people_cases; [exact I|..]; unfold store_refs; simpl; tauto. Qed.
Lemma people_relevant f (P : dfield -> Prop) : relevant store people_refs f -> (forall c g, In c people_refs -> In g (data_fields store c) -> P g) -> P f.
Proof.
  intros [c Ic If|c vs x y s Ic K I If] H; [eauto|]. exfalso. revert K I. pattern c. apply people_cases; [exact Ic|..]; intros K I; try discriminate; injection K as <-; simpl in I; intuition discriminate.
Qed.
Lemma people_types : ordinary_types store store_opts people_refs.
Proof.
  constructor.
  - intros f d R. pattern f. apply people_relevant; [exact R|]. clear f R. intros c f Ic. pattern c. apply people_cases; [exact Ic|..]; clear c Ic; intros If M; in_fields If; simpl in M;
      mention M; (split; [unfold people_refs; simpl; tauto|discriminate]).
  - reflexivity.
  - intros c vs _ Ic. pattern c. apply people_cases; [exact Ic|..]; intros K; try discriminate; injection K as <-; simpl; lia.
  - intros c Ic. pattern c. apply people_cases; [exact Ic|..]; clear c Ic;
      (exists ("m", "Person"); split; [simpl; tauto|]; split; [|reflexivity]; do 4 eexists; split; [reflexivity|]);
      (eexists; split; [left; reflexivity|eexists _, _; split; [reflexivity|simpl; tauto]]).
  - intros f d _ X. exfalso. apply X. reflexivity.
  - intros m n I. simpl in I. intuition congruence.
  - intros t s q I. simpl in I. destruct I as [I|[]]. injection I as <- <-. intros U. inversion U; subst. match goal with N : CloseSpec.uses _ _ |- _ => inversion N end.
Qed.
Lemma people_sorts : sorts_structures store people_refs addresses_last.
Proof.
  split; [intros l; apply filters_perm|]. intros l H l1 c l2 f d E If M Id.
  assert (Ic : In c l) by (apply (Permutation_in _ (filters_perm (fun c => cid_eqb c ("m", "Address")) l)); unfold addresses_last in E; rewrite E; apply in_app_iff; simpl; auto).
  apply H in Ic as [Ic St].
  assert (Id' : In d l) by (apply (Permutation_in _ (filters_perm (fun c => cid_eqb c ("m", "Address")) l)); exact Id). apply H in Id' as [_ Sd].
  assert (X : c = ("m", "Address") /\ d = ("m", "Spot")).
  { revert If St. pattern c. apply people_cases; [exact Ic|..]; intros If St; in_fields If; cbn [f_type] in M; mention M; auto;
      try (exfalso; apply St; is_entity); exfalso; destruct Sd as [(fs & a & b & ps & K) _]; discriminate K. }
  destruct X as [-> ->]. unfold addresses_last in *. apply in_app_iff in Id as [Id|Id]; [|apply filter_In in Id as [_ Id]; discriminate].
  eapply before_last; [exact E| |exact Id]. intros J. apply filter_In in J as [_ J]. discriminate.
Qed.
Example C62_example_runs m cat1 cat2 s' t' l D :
  dataclasses_to_catalog store store_opts 9 addresses_last people_refs = Ok cat1 -> dataclasses_to_catalog store store_opts 9 addresses_last store_refs = Ok cat2 ->
  mutate_catalog DPg m cat1 cat2 = Ok (s', t', l) -> has_cat DPg cat1 D -> room cat1 cat2 D -> db_ok D ->
  runs eng_pg l D (Db (db_schemas D ∪ cat_schemas cat2) (cat_objs DPg cat2 ∪ db_objs D)).
Proof.
  intros E1 E2 M HC RM OK.
  refine (C62_added_runs store store_opts people_refs store_refs 9 addresses_last addresses_last cat1 cat2 DPg m s' t' l D
      people_incl _ people_types people_sorts store_ordinary store_types store_creatable store_sorts _ E1 E2 _ M HC RM OK).
  - unfold people_refs. repeat (constructor; [simpl; intuition discriminate|]). constructor.
  - discriminate.
  - apply (C62_added_runs_modules store store_opts store_refs 9 addresses_last cat1 cat2 store_ordinary store_types store_creatable store_sorts E2).
    vm_compute in E1, E2. injection E1 as <-. injection E2 as <-. intros n [<-|[]]. simpl. tauto.
Qed.
Example C62_example_added : exists cat1 cat2 s' t' l,
  dataclasses_to_catalog store store_opts 9 addresses_last people_refs = Ok cat1 /\ dataclasses_to_catalog store store_opts 9 addresses_last store_refs = Ok cat2 /\
  mutate_catalog DPg default_options cat1 cat2 = Ok (s', t', l) /\ length l = 3%nat /\
  forall D, has_cat DPg cat1 D -> room cat1 cat2 D -> exec_all eng_pg l D = Some (Db (db_schemas D ∪ cat_schemas cat2) (cat_objs DPg cat2 ∪ db_objs D)).
Proof.
  destruct (dataclasses_to_catalog store store_opts 9 addresses_last people_refs) as [cat1|] eqn:E1; [|vm_compute in E1; discriminate].
  destruct (dataclasses_to_catalog store store_opts 9 addresses_last store_refs) as [cat2|] eqn:E2; [|vm_compute in E2; discriminate].
  destruct (mutate_catalog DPg default_options cat1 cat2) as [[[s' t'] l]|] eqn:F; [|exfalso; revert F; vm_compute in E1, E2; injection E1 as <-; injection E2 as <-; vm_compute; discriminate].
  exists cat1, cat2, s', t', l. split; [reflexivity|]. split; [reflexivity|]. split; [exact F|]. split.
  - pose proof F as F'. pose proof E1 as E1'. pose proof E2 as E2'. vm_compute in E1', E2'. injection E1' as E1'. injection E2' as E2'. rewrite <- E1', <- E2' in F'. vm_compute in F'. injection F' as _ _ F'. rewrite <- F'. reflexivity.
  - intros D HC RM. refine (proj1 (C62_added_classes store store_opts people_refs store_refs 9 addresses_last addresses_last cat1 cat2 DPg default_options s' t' l D
      people_incl _ people_types people_sorts store_ordinary store_types store_creatable store_sorts _ E1 E2 F HC RM)).
    + unfold people_refs. repeat (constructor; [simpl; intuition discriminate|]). constructor.
    + discriminate.
Qed.

(** ** Example for SQL Server, MySQL and Oracle: orders, with a reference to a discriminated union of tables and a join table, are added. *)
Definition firm_refs : list cid := [("m", "Person"); ("k", "Firm"); ("m", "Address"); ("k", "Spot"); ("m", "State"); ("m", "Mood")].
Lemma firm_cases c (P : cid -> Prop) : In c firm_refs -> P ("m", "Person") -> P ("k", "Firm") -> P ("m", "Address") -> P ("k", "Spot") -> P ("m", "State") -> P ("m", "Mood") -> P c.
Proof. unfold firm_refs. simpl. intros H **. intuition (subst; assumption). Qed.
Lemma firm_incl : incl firm_refs shop_refs.
Proof. intros c I. pattern c. apply firm_cases; [exact I|..]; unfold shop_refs; simpl; tauto. Qed.
Lemma firm_nodup : List.NoDup firm_refs.
Proof. unfold firm_refs. repeat (constructor; [simpl; intuition discriminate|]). constructor. Qed.
Lemma firm_types d r : flat_dialect d = true -> ordinary_types shop (dialect_options d (two_schemas r)) firm_refs.
Proof.
  intros Fd. assert (NE : o_enum (dialect_options d (two_schemas r)) <> EmType /\ o_struct (dialect_options d (two_schemas r)) <> SmType /\ o_array (dialect_options d (two_schemas r)) <> AmArray)
    by (destruct d, r; simpl in *; repeat split; discriminate).
  constructor.
  - intros f x R M. destruct R as [c Ic If|c vs z y s Ic K I If].
    + revert If. pattern c. apply firm_cases; [exact Ic|..]; clear c Ic; intros If; in_fields If; simpl in M; mention M; (split; [unfold firm_refs; simpl; tauto|discriminate]).
    + exfalso. revert K I. pattern c. apply firm_cases; [exact Ic|..]; intros K I; try discriminate; injection K as <-; simpl in I; intuition discriminate.
  - tauto.
  - tauto.
  - intros c Ic. pattern c. apply firm_cases; [exact Ic|..]; clear c Ic;
      ((exists ("m", "Person"); split; [simpl; tauto|]; split; [|reflexivity]; is_entity) || (exists ("k", "Firm"); split; [simpl; tauto|]; split; [|reflexivity]; is_entity)).
  - tauto.
  - intros m n I. destruct d; simpl in I; intuition congruence.
  - apply C35_dialects.
Qed.
Lemma firm_sorts : sorts_structures shop firm_refs addresses_last.
Proof.
  split; [intros l; apply filters_perm|]. intros l H l1 c l2 f d E If M Id.
  assert (Ic : In c l) by (apply (Permutation_in _ (filters_perm (fun c => cid_eqb c ("m", "Address")) l)); unfold addresses_last in E; rewrite E; apply in_app_iff; simpl; auto).
  apply H in Ic as [Ic St].
  assert (Id' : In d l) by (apply (Permutation_in _ (filters_perm (fun c => cid_eqb c ("m", "Address")) l)); exact Id). apply H in Id' as [_ Sd].
  assert (X : c = ("m", "Address") /\ d = ("k", "Spot")).
  { revert If St. pattern c. apply firm_cases; [exact Ic|..]; intros If St; in_fields If; cbn [f_type] in M; mention M; auto;
      try (exfalso; apply St; is_entity); exfalso; destruct Sd as [(fs & a & b & ps & K) _]; discriminate K. }
  destruct X as [-> ->]. unfold addresses_last in *. apply in_app_iff in Id as [Id|Id]; [|apply filter_In in Id as [_ Id]; discriminate].
  eapply before_last; [exact E| |exact Id]. intros J. apply filter_In in J as [_ J]. discriminate.
Qed.
Lemma two_alike d r : flat_dialect d = true -> prefixed_alike (dialect_options d (two_schemas r)).
Proof. intros Fd _ m m' k I _. destruct d; try discriminate Fd; simpl in I; intuition congruence. Qed.
Example C62_example_dialects d r dd m fuel cat1 cat2 cat' lc text D : flat_dialect d = true ->
  dataclasses_to_catalog shop (dialect_options d (two_schemas r)) fuel addresses_last firm_refs = Ok cat1 ->
  dataclasses_to_catalog shop (dialect_options d (two_schemas r)) fuel addresses_last shop_refs = Ok cat2 ->
  cat_create dd cat2 = Ok (cat', lc) -> mutate_text dd m cat1 cat2 = Ok (Some text) -> has_cat dd cat1 D -> room cat1 cat2 D ->
  exists s' t' l ps, mutate_catalog dd m cat1 cat2 = Ok (s', t', l) /\ read dd text = Some ps /\ Forall2 (says dd) ps l /\ Forall (only_adds cat1) l /\
    exec_all (engine_of dd) l D = Some (Db (db_schemas D ∪ cat_schemas cat2) (cat_objs dd cat2 ∪ db_objs D)).
Proof.
  intros Fd H1 H2 C T HC RM.
  destruct (C62_added_script shop _ firm_refs shop_refs fuel addresses_last addresses_last cat1 cat2 dd m cat' lc text firm_incl firm_nodup (firm_types d r Fd) firm_sorts
    (shop_ordinary d r) (shop_flat_types d r Fd) (shop_creatable d r Fd) shop_sorts (two_alike d r Fd) (shop_writable dd d r Fd) H1 H2 C) as (s' & t' & l & M & R).
  destruct (R T) as (ps & Rd & F). exists s', t', l, ps. split; [exact M|]. split; [exact Rd|]. split; [exact F|]. split.
  - exact (C62_added_only shop _ firm_refs shop_refs fuel addresses_last addresses_last cat1 cat2 dd m s' t' l firm_incl firm_nodup (firm_types d r Fd) firm_sorts
      (shop_ordinary d r) (shop_flat_types d r Fd) (shop_creatable d r Fd) shop_sorts (two_alike d r Fd) H1 H2 M).
  - exact (proj1 (C62_added_classes shop _ firm_refs shop_refs fuel addresses_last addresses_last cat1 cat2 dd m s' t' l D firm_incl firm_nodup (firm_types d r Fd) firm_sorts
      (shop_ordinary d r) (shop_flat_types d r Fd) (shop_creatable d r Fd) shop_sorts (two_alike d r Fd) H1 H2 M HC RM)).
Qed.
Example C62_example_runs_mysql m fuel cat1 cat2 s' t' l D :
  dataclasses_to_catalog shop (dialect_options DMySQL (two_schemas false)) fuel addresses_last firm_refs = Ok cat1 ->
  dataclasses_to_catalog shop (dialect_options DMySQL (two_schemas false)) fuel addresses_last shop_refs = Ok cat2 ->
  mutate_catalog Ddl.DMySQL m cat1 cat2 = Ok (s', t', l) -> has_cat Ddl.DMySQL cat1 D -> room cat1 cat2 D -> db_ok D ->
  runs (engine_of Ddl.DMySQL) l D (Db (db_schemas D ∪ cat_schemas cat2) (cat_objs Ddl.DMySQL cat2 ∪ db_objs D)).
Proof.
  intros H1 H2 M HC RM OK. pose (d := DMySQL). assert (Fd : flat_dialect d = true) by reflexivity.
  refine (C62_added_runs shop _ firm_refs shop_refs fuel addresses_last addresses_last cat1 cat2 Ddl.DMySQL m s' t' l D firm_incl firm_nodup (firm_types d false Fd) firm_sorts
      (shop_ordinary d false) (shop_flat_types d false Fd) (shop_creatable d false Fd) shop_sorts (two_alike d false Fd) H1 H2 _ M HC RM OK).
  - apply (C62_added_runs_prefixed shop (dialect_options DMySQL (two_schemas false)) shop_refs fuel addresses_last cat1 cat2 eq_refl (shop_ordinary d false) (shop_flat_types d false Fd) shop_sorts H2).
Qed.
Definition added (d : ConvertDialects.dialect) (r : bool) (dd : Ddl.dialect) : res (nat * option nat) :=
  match dataclasses_to_catalog shop (dialect_options d (two_schemas r)) 9 addresses_last firm_refs, dataclasses_to_catalog shop (dialect_options d (two_schemas r)) 9 addresses_last shop_refs with
  | Ok cat1, Ok cat2 => match mutate_catalog dd default_options cat1 cat2, mutate_text dd default_options cat1 cat2 with
                        | Ok (_, _, l), Ok x => Ok (length l, option_map String.length x) | Err e, _ => Err e | _, Err e => Err e end
  | Err e, _ => Err e | _, Err e => Err e end.
Example C62_example_lengths : (added DMSSQL true Ddl.DMSSQL, added DMySQL false Ddl.DMySQL, added DOracle true Ddl.DOracle) = (Ok (9, Some 1649), Ok (4, Some 957), Ok (13, Some 1811))%nat.
Proof. vm_compute. reflexivity. Qed.

(** ** What the proviso excludes, and classes that are removed (findings)

    Namespaces that exist are changed in the order in which the old catalog has them, each with the foreign keys of its new
    tables: a new table may be made to refer to one that is only created later.  The same classes can be created at once. *)
Definition changed_wrong (env : cid -> classdef) (o : copts) (refs1 refs2 : list cid) (d : Ddl.dialect) : Prop :=
  exists cat1 cat2 c1 l1 c2 l2 D s' t' l,
    dataclasses_to_catalog env o 9 (fun l => l) refs1 = Ok cat1 /\ dataclasses_to_catalog env o 9 (fun l => l) refs2 = Ok cat2 /\
    cat_create d cat1 = Ok (c1, l1) /\ exec_all (engine_of d) (l1 ++ cat_add_constraints d c1) empty_db = Some D /\
    cat_create d cat2 = Ok (c2, l2) /\ (exists D', exec_all (engine_of d) (l2 ++ cat_add_constraints d c2) empty_db = Some D') /\
    mutate_catalog d default_options cat1 cat2 = Ok (s', t', l) /\ ~ exists D', runs (engine_of d) l D D'.
Definition plain_id : dfield := Fld "id" (YAnn YInt [MPrimary]) DMissing.
Definition crossing : cid -> classdef := fun c =>
  if cid_eqb c ("m", "Author") then KData [plain_id] false None []
  else if cid_eqb c ("k", "Shelf") then KData [plain_id] false None []
  else if cid_eqb c ("m", "Loan") then KData [plain_id; Fld "book" (YCls ("k", "Book")) DMissing] false None []
  else if cid_eqb c ("k", "Book") then KData [plain_id] false None []
  else if cid_eqb c ("m", "Novel") then KData [plain_id; Fld "author" (YCls ("m", "Author")) DMissing] false None []
  else if cid_eqb c ("m", "Visitor") then KData [plain_id] false None []
  else if cid_eqb c ("n", "Fine") then KData [plain_id; Fld "book" (YCls ("k", "Book")) DMissing] false None []
  else KOther.
Definition three_schemas : goptions := GOpts None None None [("m", Some "app"); ("k", Some "lib"); ("n", Some "fee")] true true (fun _ => false) false (fun _ => true).
Ltac run_wrong i loan :=
  unfold changed_wrong; do 10 eexists; repeat (split; [first [vm_compute; reflexivity | eexists; vm_compute; reflexivity]|]);
  match goal with |- ~ exists D', runs _ ?l ?D _ =>
    assert (X : exists D1, exec_all eng_pg (firstn (S i) l) D = Some D1 /\
      (exists tb, db_objs D1 !! loan = Some (OTable tb) /\ exists n f, dt_cons tb !! n = Some (CForeign f ["book"] (Qualified (Some "lib") "Book") ["id"])) /\ db_objs D1 !! ("lib", "Book") = None)
      by (eexists; split; [vm_compute; reflexivity|]; split; [eexists; split; [vm_compute; reflexivity|]; exists ("fk_" ++ snd loan ++ "_book"); eexists; vm_compute; reflexivity|vm_compute; reflexivity]);
    destruct X as (D1 & X & (tb & L & n & f & C) & N); apply (not_runs _ l D i D1 X); [exact (dangling_fk D1 _ _ _ _ _ _ _ L C N)|simpl; lia] end.
Theorem C62_added_reference_refuted :
  changed_wrong crossing (dialect_options DPostgres three_schemas) [("m", "Author"); ("k", "Shelf")] [("m", "Author"); ("k", "Shelf"); ("m", "Loan"); ("k", "Book")] DPg.
Proof. run_wrong 1%nat ("app", "Loan"). Qed.
Print Assumptions C62_added_reference_refuted.
(** ... and namespaces that are new come before the changes to those that exist. *)
Theorem C62_added_module_refuted :
  changed_wrong crossing (dialect_options DPostgres three_schemas) [("k", "Shelf")] [("k", "Shelf"); ("n", "Fine"); ("k", "Book")] DPg.
Proof. run_wrong 2%nat ("fee", "Fine"). Qed.
Print Assumptions C62_added_module_refuted.
(** Classes that are removed: tables of a namespace that stays are dropped in the order in which they were created, and the foreign
    keys among them are not dropped first. *)
Theorem C62_removed_classes_refuted :
  changed_wrong crossing (dialect_options DPostgres three_schemas) [("m", "Visitor"); ("m", "Novel"); ("m", "Author")] [("m", "Visitor")] DPg.
Proof.
  unfold changed_wrong; do 10 eexists; repeat (split; [first [vm_compute; reflexivity | eexists; vm_compute; reflexivity]|]).
  match goal with |- ~ exists D', runs _ ?l ?D _ =>
    assert (X : exists D1, exec_all eng_pg (firstn 1 l) D = Some D1 /\
      (exists tb, db_objs D1 !! ("app", "Novel") = Some (OTable tb) /\ exists n f, dt_cons tb !! n = Some (CForeign f ["author"] (Qualified (Some "app") "Author") ["id"])) /\ db_objs D1 !! ("app", "Author") = None)
      by (eexists; split; [vm_compute; reflexivity|]; split; [eexists; split; [vm_compute; reflexivity|]; exists "fk_Novel_author"; eexists; vm_compute; reflexivity|vm_compute; reflexivity]);
    destruct X as (D1 & X & (tb & L & n & f & C) & N); apply (not_runs _ l D 0%nat D1 X); [exact (dangling_fk D1 _ _ _ _ _ _ _ L C N)|simpl; lia] end.
Qed.
Print Assumptions C62_removed_classes_refuted.
