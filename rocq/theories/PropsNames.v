(** C37 (names of constraints). *)
From Verif Require Import PyStr QuoteModel ObjectDict ObjectDictProofs Types Objects Compat Ddl Convert ConvertDialects ConvertSpec ConvertProofs
  CloseSpec CloseProofs1 CloseProofs2 CloseProofs3 CloseProofs4 CloseProofs5 NamesSpec NamesProofs PropsClose.
From Coq Require Import Lia.
Open Scope string_scope.

(** In each schema of the catalog, the names of all constraints are different, with those of the primary keys (whatever the
    dialect [d] by which the tables are then created). *)
Theorem C37_names_distinct env o refs fuel topo cat n d :
  separable env o refs -> dataclasses_to_catalog env o fuel topo refs = Ok cat -> In n cat ->
  NoDup (map (fun t => pk_name d (t_name t)) (n_tables n) ++ constraint_names n).
Proof. intros HP H I. eapply schema_keys; eauto. Qed.
Print Assumptions C37_names_distinct.

(** No constraint is lost for its name: the table of a class has a unique constraint for each field that is annotated as
    unique, *)
Theorem C37_unique_kept env o fuel c t f u ms :
  NoDup (map f_name (data_fields env c)) -> o_foreign o = true -> dataclass_to_table env o fuel c = Ok t ->
  In f (data_fields env c) -> f_type f = YAnn u ms -> In MUnique ms ->
  exists n, In (CUnique n [f_name f]) (t_constraints t).
Proof.
  intros ND OF HT If Ty Iu.
  assert (K : exists n, key_name o "uq" c (f_name f) = Ok n).
  { apply table_inv in HT as (cols & ks & q & kn & H1 & H2 & H3 & H4 & ->). unfold key_name, qualified_prefix. rewrite H3. destruct (o_unique_names o); simpl; eauto. }
  destruct K as (n & K). exists n. eapply kept_table; eauto; [congruence|].
  intros cols ks _ H. unfold table_keys in H. rewrite OF in H. binds H. binds H. binds H. binds H. binds H. injection H as <-.
  apply in_app_iff. left. unfold class_constraints in E. binds E. binds E. injection E as <-. apply in_app_iff. left.
  unfold unique_constraints in E4. binds E4. injection E4 as <-. apply map_res_all2 in E. destruct (all2_in_l _ _ _ _ E If) as (r & Ir & Er).
  assert (P : p_unique (field_properties (f_type f)) = true).
  { unfold field_properties. cbn [p_unique]. apply existsb_exists. exists MUnique. rewrite Ty. simpl metadata. split; [apply in_app_iff; now left|now apply meta_eqb_eq]. }
  rewrite P, K in Er. injection Er as <-. apply in_concat. exists [CUnique n [f_name f]]. split; [exact Ir|now left].
Qed.
Print Assumptions C37_unique_kept.

(** a foreign key for each field of the type of an entity, *)
Definition reference_type (t : pytype) (r : cid) : Prop :=
  exists u, (u = YCls r \/ u = YFwd r) /\ (t = u \/ t = YUnion [u; YNone] \/ t = YUnion [YNone; u] \/ exists ms, t = YAnn u ms /\ u = YCls r).
Lemma reference_required env f r : entity env r -> reference_type (f_type f) r -> entity_of env (required_type f) = Some r.
Proof.
  intros En (u & U & T).
  assert (EE : forall t, unwrap t = YCls r -> entity_of env t = Some r).
  { intros t Ut. destruct En as (fs & ab & d & ps & K & g & Ig & Kg). unfold entity_of, dataclass_of. rewrite Ut, K.
    assert (H : has_key env r = true). { unfold has_key, fields_of. rewrite K. apply existsb_exists. exists g. split; [exact Ig|]. now apply primary_key_type. }
    now rewrite H. }
  apply EE. unfold required_type, field_properties, field_type. destruct T as [-> |[-> |[-> |(ms & -> & ->)]]]; [destruct U as [-> | ->]; reflexivity..|].
  simpl. unfold mk_ann. rewrite app_nil_r. destruct (filter _ ms); reflexivity.
Qed.
Theorem C37_foreign_kept env o fuel c t f r :
  NoDup (map f_name (data_fields env c)) -> o_foreign o = true -> dataclass_to_table env o fuel c = Ok t ->
  In f (data_fields env c) -> reference_type (f_type f) r -> entity env r ->
  exists n q keys, class_qid o r = Ok q /\ In (CForeign n [f_name f] q keys) (t_constraints t).
Proof.
  intros ND OF HT If Ty En. apply (reference_required env) in Ty; [|exact En].
  pose proof HT as HT'. apply table_inv in HT' as (cols & ks & q & kn & H1 & H2 & H3 & H4 & _).
  assert (K : exists n, key_name o "fk" c (f_name f) = Ok n).
  { unfold key_name, qualified_prefix. rewrite H3. destruct (o_unique_names o); simpl; eauto. }
  destruct K as (n & K).
  assert (R : exists q', reference_to env o r = Ok q').
  { unfold table_keys in H2. rewrite OF in H2. binds H2. binds H2. binds H2. binds H2. binds H2. unfold class_constraints in E. rewrite OF in E. binds E. binds E. binds E5.
    apply map_res_all2 in E6. destruct (all2_in_l _ _ _ _ E6 If) as (x & Ix & Ex). unfold field_reference in Ex. rewrite Ty in Ex. binds Ex. binds E7. binds E7. eauto. }
  destruct R as (q' & R). exists n, (fst q'), (snd q'). split.
  { unfold reference_to in R. binds R. binds R. injection R as <-. exact E. }
  eapply kept_table; eauto; [congruence|].
  intros cols' ks' _ H. unfold table_keys in H. rewrite OF in H. binds H. binds H. binds H. binds H. binds H. injection H as <-.
  apply in_app_iff. left. unfold class_constraints in E. rewrite OF in E. binds E. binds E. injection E as <-. apply in_app_iff. right.
  binds E5. injection E5 as <-. apply map_res_all2 in E. destruct (all2_in_l _ _ _ _ E If) as (x & Ix & Ex).
  apply in_concat. exists x. split; [exact Ix|]. unfold field_reference in Ex. rewrite Ty in Ex. binds Ex. binds Ex. injection Ex as <-.
  rewrite K, R in E5. injection E5 as <-. now left.
Qed.
Print Assumptions C37_foreign_kept.

(** and a discriminated reference for each field whose type is a union of entities. *)
Theorem C37_union_kept env o fuel c t f rs :
  NoDup (map f_name (data_fields env c)) -> o_foreign o = true -> dataclass_to_table env o fuel c = Ok t ->
  In f (data_fields env c) -> f_type f = YUnion (map YCls rs) -> (2 <= length rs)%nat -> (forall r, In r rs -> entity env r) ->
  exists n refs, In (CDiscr n [f_name f] refs) (t_constraints t) /\ Forall2 (fun r p => class_qid o r = Ok (fst p)) rs refs.
Proof.
  intros ND OF HT If Ty L En.
  assert (NN : forall l, existsb is_none (map YCls l) = false) by (induction l; auto).
  assert (ND' : forall l, existsb is_default_tag (map YCls l) = false) by (induction l; auto).
  assert (RT : required_type f = YUnion (map YCls rs)).
  { assert (DD : drop_default (YUnion (map YCls rs)) = YUnion (map YCls rs)).
    { unfold drop_default. cbn [union_members unwrap]. rewrite ND', Bool.andb_false_r. reflexivity. }
    assert (OO : is_optional (YUnion (map YCls rs)) = false) by (unfold is_optional; cbn [unwrap]; apply NN).
    unfold required_type, field_properties, field_type. rewrite Ty. cbn [unwrap]. rewrite DD, OO. reflexivity. }
  assert (EV : map evaluate (map YCls rs) = map YCls rs) by (clear; induction rs; simpl; congruence).
  assert (IE : forall r, In r rs -> entity_of env (YCls r) = Some r).
  { intros r Ir. destruct (En r Ir) as (fs & ab & d & ps & K & g & Ig & Kg). unfold entity_of, dataclass_of. simpl. rewrite K.
    assert (H : has_key env r = true). { unfold has_key, fields_of. rewrite K. apply existsb_exists. exists g. split; [exact Ig|]. now apply primary_key_type. }
    now rewrite H. }
  assert (FA : forallb (is_entity env) (map YCls rs) = true).
  { apply forallb_forall. intros x Ix. apply in_map_iff in Ix as (r & <- & Ir). unfold is_entity. now rewrite IE. }
  assert (UN : is_union (YUnion (map YCls rs)) = true) by (unfold is_union; simpl; rewrite NN; apply Bool.orb_true_r).
  pose proof HT as HT'. apply table_inv in HT' as (cols & ks & q & kn & H1 & H2 & H3 & H4 & _).
  unfold table_keys in H2. rewrite OF in H2. binds H2. binds H2. binds H2. binds H2. binds H2. unfold class_constraints in E. rewrite OF in E. binds E. binds E. binds E5.
  apply map_res_all2 in E6. destruct (all2_in_l _ _ _ _ E6 If) as (x & Ix & Ex). pose proof Ex as EX. unfold field_reference in Ex. rewrite RT in Ex. binds Ex. binds Ex. injection Ex as <-.
  rewrite UN in E8. cbv zeta in E8. change (union_members (YUnion (map YCls rs))) with (map YCls rs) in E8. rewrite EV, FA in E8. binds E8. binds E8. injection E8 as <-.
  exists v9, v10. rename E10 into HM. split.
  - eapply kept_table; eauto; [congruence|].
    intros cols' ks' _ H. unfold table_keys in H. rewrite OF in H. binds H. binds H. binds H. binds H. binds H. injection H as <-.
    apply in_app_iff. left. unfold class_constraints in E8. rewrite OF in E8. binds E8. binds E8. injection E8 as <-. apply in_app_iff. right.
    match goal with X : bind (map_res (field_reference _ _ _) _) _ = Ok _ |- _ => rename X into HX end.
    apply bind_inv in HX as (zs & HZ & HX). injection HX as <-. apply map_res_all2 in HZ. destruct (all2_in_l _ _ _ _ HZ If) as (z & Iz & Ez). rewrite EX in Ez. injection Ez as <-.
    apply in_concat. eexists. split; [exact Iz|]. apply in_app_iff. right. now left.
  - clear - HM IE. apply map_res_all2 in HM. revert HM. match goal with |- Forall2 _ _ ?l -> _ => generalize l end. induction rs as [|r rs IH]; intros l HM; inversion HM; subst; constructor.
    + rewrite IE in H1 by now left. unfold reference_to in H1. binds H1. binds H1. injection H1 as <-. exact E.
    + apply IH; [intros; apply IE; now right|assumption].
Qed.
Print Assumptions C37_union_kept.

(** ** Hypotheses are met *)
Ltac lacks := simpl; intuition discriminate.
Lemma shop_separable d r : separable shop (dialect_options d (two_schemas r)) shop_refs.
Proof.
  pose proof (shop_ordinary d r) as O. constructor.
  - apply (ord_schemas _ _ _ O).
  - intros c Ic. now apply (ord_fields _ _ _ O).
  - intros c f Ic. pattern c. apply shop_cases; [exact Ic|..]; clear c Ic; intros If; in_fields If; lacks.
  - intros c Ic. pattern c. apply shop_cases; [exact Ic|..]; (split; lacks).
  - intros c f g x Ic. pattern c. apply shop_cases; [exact Ic|..]; clear c Ic; intros If Ig M E; in_fields If; simpl in M; mention M; in_fields Ig; simpl in E; discriminate.
  - intros c f x Ic If M. now apply (shop_complete c f x).
  - intros _ m n I. assert (X : In (m, Some n) [("m", Some "people"); ("k", Some "sales")]) by (destruct d; simpl in I; auto).
    destruct X as [X|[X|[]]]; injection X as <- <-; (split; lacks).
  - intros _ c f Ic. pattern c. apply shop_cases; [exact Ic|..]; clear c Ic; intros If; in_fields If; (split; [discriminate|intros s; discriminate]).
  - intros _ c c' vs vs' Ic Ic'. revert Ic'. pattern c. apply shop_cases; [exact Ic|..]; clear c Ic; intros Ic' K; try discriminate K;
      pattern c'; (apply shop_cases; [exact Ic'|..]); intros K' E; try discriminate; reflexivity.
  - destruct d; (left; reflexivity) || (right; reflexivity).
Qed.
Example C37_example_dialects d d' r fuel topo cat n :
  dataclasses_to_catalog shop (dialect_options d (two_schemas r)) fuel topo shop_refs = Ok cat -> In n cat ->
  NoDup (map (fun t => pk_name d' (t_name t)) (n_tables n) ++ constraint_names n).
Proof. apply C37_names_distinct, shop_separable. Qed.
Example C37_example_oracle : exists n,
  dataclasses_to_catalog shop (dialect_options DOracle (two_schemas true)) 9 (fun l => l) shop_refs = Ok [n] /\
  map (fun t => pk_name Ddl.DOracle (t_name t)) (n_tables n) =
    ["pk_sales__Firm"; "pk_sales__Order"; "pk_sales__Color"; "pk_sales__Order_colors_Color"; "pk_sales__Order_parties_Person";
     "pk_people__Person"; "pk_people__State"; "pk_people__Mood"; "pk_people__Person_friends_Person"] /\
  constraint_names n =
    ["fk_sales__Order_buyer"; "fk_sales__Order_seller"; "dk_sales__Order_owner"; "uq_Color";
     "jk_sales__Order_colors"; "jk_sales__Order_colors_Color"; "jk_sales__Order_parties"; "jk_sales__Order_parties_Person"; "uq_sales__Order_parties_Person";
     "uq_people__Person_name"; "fk_people__Person_mood"; "fk_people__Person_state"; "uq_State"; "uq_Mood";
     "jk_people__Person_friends"; "jk_people__Person_friends_Person"].
Proof. eexists. split; [vm_compute; reflexivity|]. split; vm_compute; reflexivity. Qed.
Example C37_example_kept : exists t,
  dataclass_to_table shop (dialect_options DMSSQL (two_schemas true)) 9 ("k", "Order") = Ok t /\
  reference_type (YUnion [YFwd ("m", "Person"); YNone]) ("m", "Person") /\ entity shop ("m", "Person") /\ entity shop ("k", "Firm") /\
  map k_name (t_constraints t) = ["fk_sales_Order_buyer"; "fk_sales_Order_seller"; "dk_sales_Order_owner"].
Proof.
  eexists. split; [vm_compute; reflexivity|]. split; [exists (YFwd ("m", "Person")); tauto|]. split; [|split].
  - do 4 eexists. split; [reflexivity|]. eexists. split; [left; reflexivity|]. do 2 eexists. split; [reflexivity|simpl; tauto].
  - do 4 eexists. split; [reflexivity|]. eexists. split; [left; reflexivity|]. do 2 eexists. split; [reflexivity|simpl; tauto].
  - reflexivity.
Qed.

(** ** Names that clash (findings) *)
Definition clashes (env : cid -> classdef) (o : copts) (refs : list cid) (x : string) : Prop :=
  exists cat n t t', dataclasses_to_catalog env o 9 (fun l => l) refs = Ok cat /\ In n cat /\ In t (n_tables n) /\ In t' (n_tables n) /\
  t_name t <> t_name t' /\ In x (map k_name (t_constraints t)) /\ In x (map k_name (t_constraints t')).
Definition id_field : dfield := Fld "id" (YAnn YInt [MPrimary]) DMissing.
Tactic Notation "clash_in" integer(i) integer(j) :=
  do 4 eexists; split; [vm_compute; reflexivity|]; split; [left; reflexivity|]; split; [do i right; left; reflexivity|]; split; [do j right; left; reflexivity|];
  split; [discriminate|]; split; simpl; tauto.

(** An underscore in the name of a class: [Order.item_ref] and [Order_item.ref] refer to other tables by constraints of the
    same name. *)
Definition underscores : cid -> classdef := fun c =>
  if cid_eqb c ("m", "Order") then KData [id_field; Fld "item_ref" (YCls ("m", "Item")) DMissing] false None []
  else if cid_eqb c ("m", "Order_item") then KData [id_field; Fld "ref" (YCls ("m", "Item")) DMissing] false None []
  else if cid_eqb c ("m", "Item") then KData [id_field] false None []
  else KOther.
Theorem C37_class_underscore_refuted d : In d [DPostgres; DMySQL; DMSSQL; DOracle; DTrino] ->
  exists x, clashes underscores (dialect_options d (m_schema None)) [("m", "Order"); ("m", "Order_item"); ("m", "Item")] x.
Proof.
  intros I. simpl in I. repeat destruct I as [<-|I]; [exists "fk_Order_item_ref"|exists "fk_app__Order_item_ref"|exists "fk_app_Order_item_ref"|
    exists "fk_app__Order_item_ref"|exists "fk_app_Order_item_ref"|destruct I]; clash_in 1 2.
Qed.
Print Assumptions C37_class_underscore_refuted.

(** Two enumerations of the same name in two modules: on Oracle the lookup tables of both are in one schema, and their unique
    constraints have the same name. *)
Definition two_states : cid -> classdef := fun c =>
  if cid_eqb c ("m", "Order") then KData [id_field; Fld "state" (YCls ("m", "State")) DMissing] false None []
  else if cid_eqb c ("k", "Invoice") then KData [id_field; Fld "state" (YCls ("k", "State")) DMissing] false None []
  else if cid_eqb c ("m", "State") || cid_eqb c ("k", "State") then KEnum [EStr "on"; EStr "off"]
  else KOther.
Theorem C37_same_enum_name_refuted : clashes two_states (dialect_options DOracle (m_schema None)) [("m", "Order"); ("k", "Invoice"); ("m", "State"); ("k", "State")] "uq_State".
Proof. unfold clashes. clash_in 1 3. Qed.
Print Assumptions C37_same_enum_name_refuted.

(** A set [members] of [User] and a unique field [members_User]: the join table and the table of the class. *)
Definition set_field : cid -> classdef := fun c =>
  if cid_eqb c ("m", "Team") then KData [id_field; Fld "members" (YSet (YCls ("m", "User"))) DMissing; Fld "members_User" (YAnn YStr [MMaxLength 9; MUnique]) DMissing] false None []
  else if cid_eqb c ("m", "User") then KData [id_field] false None []
  else KOther.
Theorem C37_set_field_refuted : clashes set_field (dialect_options DMSSQL (m_schema None)) [("m", "Team"); ("m", "User")] "uq_app_Team_members_User".
Proof. unfold clashes. clash_in 0 2. Qed.
Print Assumptions C37_set_field_refuted.
