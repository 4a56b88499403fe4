(** C35 (converted catalogs are referentially closed). *)
From Verif Require Import PyStr QuoteModel ObjectDict ObjectDictProofs Types Objects Compat Convert ConvertDialects ConvertSpec ConvertProofs
  CloseSpec CloseProofs1 CloseProofs2 CloseProofs3 CloseProofs4 CloseProofs5 CloseProofs6.
From Coq Require Import Lia.
Open Scope string_scope.

(** Converting a complete set of classes: every foreign key (also of a discriminated union, and of a join table) is from a
    column of the table to the primary key of a table of the catalog, in the schema that the reference names, and both
    columns have the same type. *)
Theorem C35_foreign_keys_closed env o refs fuel topo cat :
  ordinary env o refs -> complete env refs ->
  dataclasses_to_catalog env o fuel topo refs = Ok cat -> foreign_keys_closed cat.
Proof. intros HO HC H. eapply catalog_closed; eauto. Qed.
Print Assumptions C35_foreign_keys_closed.

(** Every named type of a column or of a member of a structure is a type of the engine or of the catalog.
    [topo] orders structures by dependency: it neither drops nor adds any. *)
Theorem C35_types_closed env o refs fuel topo cat :
  ordinary env o refs -> ordinary_types env o refs -> (forall l c, In c (topo l) <-> In c l) ->
  dataclasses_to_catalog env o fuel topo refs = Ok cat -> types_closed cat.
Proof. intros HO HT TP H. eapply catalog_types_closed; eauto. Qed.
Print Assumptions C35_types_closed.

(** What is assumed about substitutions holds for every dialect. *)
Theorem C35_dialects d g :
  (forall t s, In (t, s) (o_subst (dialect_options d g)) ->
     (forall c, ~ mentions t c) /\ (forall e, ~ annotated t (YList e) /\ ~ annotated t (YSet e))) /\
  (forall t s q, In (t, s) (o_subst (dialect_options d g)) -> uses s q -> exists n, q = Global n).
Proof.
  split.
  - intros t s I. destruct d; simpl in I;
      repeat (destruct I as [I|I]; [injection I as <- <-; split;
        [intros c M; inversion M; subst; match goal with X : mentions _ _ |- _ => inversion X end|
         intros e; split; intros [A|(ms & A)]; inversion A]|]); contradiction.
  - intros t s q I U. destruct d; simpl in I;
      repeat (destruct I as [I|I]; [injection I as <- <-; inversion U; subst; match goal with X : uses _ _ |- _ => inversion X end|]); contradiction.
Qed.
Print Assumptions C35_dialects.

(** ** Hypotheses are met *)

(** people and orders in two modules: references, optional and forward references, discriminated unions, join tables,
    enumerations, an enumeration extensible by strings, an enumeration of objects, a structure within a structure, arrays *)
Definition shop : cid -> classdef := fun c =>
  if cid_eqb c ("m", "Person")
  then KData [Fld "id" (YAnn (YUnion [YInt; YDefault]) [MIdentity; MPrimary]) DMissing;
              Fld "name" (YAnn YStr [MMaxLength 64; MUnique]) DMissing;
              Fld "state" (YUnion [YCls ("m", "State"); YNone]) DMissing;
              Fld "mood" (YUnion [YCls ("m", "Mood"); YStr]) DMissing;
              Fld "friends" (YUnion [YList (YCls ("m", "Person")); YNone]) DMissing;
              Fld "address" (YCls ("m", "Address")) DMissing] false (Some "A person.") []
  else if cid_eqb c ("k", "Order")
  then KData [Fld "key" (YAnn YUuid [MPrimary]) DMissing;
              Fld "buyer" (YCls ("m", "Person")) DMissing;
              Fld "seller" (YUnion [YFwd ("m", "Person"); YNone]) DMissing;
              Fld "owner" (YUnion [YCls ("m", "Person"); YCls ("k", "Firm")]) DMissing;
              Fld "colors" (YList (YCls ("k", "Color"))) DMissing;
              Fld "parties" (YSet (YCls ("m", "Person"))) DMissing] false None []
  else if cid_eqb c ("k", "Firm") then KData [Fld "id" (YAnn YInt [MPrimary]) DMissing; Fld "home" (YCls ("m", "Address")) DMissing] false None []
  else if cid_eqb c ("m", "Address") then KData [Fld "city" YStr DMissing; Fld "spot" (YUnion [YCls ("k", "Spot"); YNone]) DMissing] false None []
  else if cid_eqb c ("k", "Spot") then KData [Fld "x" YInt DMissing; Fld "state" (YCls ("m", "State")) DMissing] false None []
  else if cid_eqb c ("m", "State") then KEnum [EStr "on"; EStr "off"]
  else if cid_eqb c ("m", "Mood") then KEnum [EStr "good"; EStr "bad"]
  else if cid_eqb c ("k", "Color") then KEnum [EStr "red"; EStr "blue"]
  else KOther.
Definition shop_refs : list cid :=
  [("m", "Person"); ("k", "Order"); ("k", "Firm"); ("m", "Address"); ("k", "Spot"); ("m", "State"); ("m", "Mood"); ("k", "Color")].
Definition two_schemas (relations : bool) : goptions :=
  GOpts None None (if relations then Some AmRelation else None) [("m", Some "people"); ("k", Some "sales")] true true (fun _ => false) false (fun _ => true).

Ltac each_class H := unfold shop_refs in H; simpl in H; repeat (destruct H as [<-|H]; [|]); [..|destruct H].
Lemma shop_cases c (P : cid -> Prop) : In c shop_refs -> P ("m", "Person") -> P ("k", "Order") -> P ("k", "Firm") -> P ("m", "Address") -> P ("k", "Spot") ->
  P ("m", "State") -> P ("m", "Mood") -> P ("k", "Color") -> P c.
Proof. unfold shop_refs. simpl. intros H **. intuition (subst; assumption). Qed.

Ltac in_fields If := simpl in If; repeat (destruct If as [<-|If]; [|]); [..|destruct If].
Ltac in_list I := simpl in I; repeat (destruct I as [<-|I]; [|]); [..|destruct I].
Ltac mention M :=
  repeat match type of M with
  | mentions (YCls _) _ => inversion M; subst; clear M
  | mentions (YFwd _) _ => inversion M; subst; clear M
  | mentions (YAnn _ _) _ => inversion M; subst; clear M; match goal with N : mentions _ _ |- _ => rename N into M end
  | mentions (YList _) _ => inversion M; subst; clear M; match goal with N : mentions _ _ |- _ => rename N into M end
  | mentions (YSet _) _ => inversion M; subst; clear M; match goal with N : mentions _ _ |- _ => rename N into M end
  | mentions (YUnion _) _ => let I := fresh "I" in inversion M as [| | |? ? ? I N| |]; subst; clear M; rename N into M; in_list I
  | mentions _ _ => solve [inversion M]
  end.

Lemma shop_complete : complete shop shop_refs.
Proof.
  intros c f d Ic. pattern c. apply shop_cases; [exact Ic|..]; clear c Ic; intros If M; in_fields If; simpl in M;
    mention M; (split; [unfold shop_refs; simpl; tauto|discriminate]).
Qed.
Lemma tagged_leaf m t : match t with YAnn _ _ | YUnion _ => False | _ => True end -> ~ tagged m t.
Proof. intros H T. destruct T; exact H. Qed.
Ltac no_underscore := simpl; intuition discriminate.
Lemma shop_ordinary d r : ordinary shop (dialect_options d (two_schemas r)) shop_refs.
Proof.
  constructor.
  - intros c Ic. pattern c. apply shop_cases; [exact Ic|..]; (split; [simpl; repeat (constructor; [simpl; intuition discriminate|]); constructor|simpl; intuition discriminate]).
  - intros c f Ic. pattern c. apply shop_cases; [exact Ic|..]; clear c Ic; intros If T; in_fields If;
      try (eexists _, _; split; [reflexivity|simpl; tauto]);
      exfalso; simpl in T; repeat match type of T with
      | tagged _ (YUnion _) => let I := fresh "I" in inversion T as [| |? ? I N]; subst; clear T; rename N into T; in_list I
      | tagged _ (YAnn _ _) => inversion T as [? ? I|? ? N|]; subst; clear T; [simpl in I; intuition discriminate|rename N into T]
      | tagged _ _ => solve [eapply tagged_leaf; [|exact T]; exact Logic.I]
      end.
  - intros c Ic. pattern c. apply shop_cases; [exact Ic|..]; no_underscore.
  - intros c f x Ic. pattern c. apply shop_cases; [exact Ic|..]; clear c Ic; intros If M E; in_fields If; simpl in M; mention M; simpl in E; try discriminate; reflexivity.
  - intros m n m' n' I I' E. assert (X : In (m, n) [("m", Some "people"); ("k", Some "sales")] /\ In (m', n') [("m", Some "people"); ("k", Some "sales")])
      by (destruct d; simpl in I, I'; auto). clear I I'. destruct X as [I I']. simpl in I, I'.
    destruct I as [I|[I|[]]], I' as [I'|[I'|[]]]; injection I as <- <-; injection I' as <- <-; try discriminate; auto.
  - intros _ m n I. assert (X : In (m, Some n) [("m", Some "people"); ("k", Some "sales")]) by (destruct d; simpl in I; auto).
    destruct X as [X|[X|[]]]; injection X as <- <-; (split; [discriminate|no_underscore]).
  - apply C35_dialects.
  - intros c vs x y s Ic. pattern c. apply shop_cases; [exact Ic|..]; intros K I; try discriminate; injection K as <-; simpl in I; intuition discriminate.
Qed.
Example C35_example_dialects d r fuel topo cat :
  dataclasses_to_catalog shop (dialect_options d (two_schemas r)) fuel topo shop_refs = Ok cat -> foreign_keys_closed cat.
Proof. apply C35_foreign_keys_closed; [apply shop_ordinary|apply shop_complete]. Qed.

Definition table_names (cat : catalog) : list (string * list qid) := map (fun n => (n_name n, map t_name (n_tables n))) cat.
Definition references (cat : catalog) : list (string * qid) :=
  flat_map (fun n => flat_map (fun t => flat_map (fun k => match k with CForeign a _ q _ => [(a, q)] | CDiscr a _ l => map (fun p => (a, fst p)) l | _ => [] end)
    (t_constraints t)) (n_tables n)) cat.
Example C35_example_mssql : exists cat,
  dataclasses_to_catalog shop (dialect_options DMSSQL (two_schemas true)) 9 (fun l => l) shop_refs = Ok cat /\
  table_names cat =
    [("sales", [Qualified (Some "sales") "Firm"; Qualified (Some "sales") "Order"; Qualified (Some "sales") "Color";
                Qualified (Some "sales") "Order_colors_Color"; Qualified (Some "sales") "Order_parties_Person"]);
     ("people", [Qualified (Some "people") "Person"; Qualified (Some "people") "State"; Qualified (Some "people") "Mood";
                 Qualified (Some "people") "Person_friends_Person"])] /\
  references cat =
    [("fk_sales_Order_buyer", Qualified (Some "people") "Person"); ("fk_sales_Order_seller", Qualified (Some "people") "Person");
     ("dk_sales_Order_owner", Qualified (Some "people") "Person"); ("dk_sales_Order_owner", Qualified (Some "sales") "Firm");
     ("jk_sales_Order_colors", Qualified (Some "sales") "Order"); ("jk_sales_Order_colors_Color", Qualified (Some "sales") "Color");
     ("jk_sales_Order_parties", Qualified (Some "sales") "Order"); ("jk_sales_Order_parties_Person", Qualified (Some "people") "Person");
     ("fk_people_Person_mood", Qualified (Some "people") "Mood"); ("fk_people_Person_state", Qualified (Some "people") "State");
     ("jk_people_Person_friends", Qualified (Some "people") "Person"); ("jk_people_Person_friends_Person", Qualified (Some "people") "Person")].
Proof. eexists. split; [vm_compute; reflexivity|]. split; vm_compute; reflexivity. Qed.

Ltac list_of L := simpl in L; repeat match goal with N : lists (YUnion _) _ |- _ => let I := fresh "I" in inversion N as [| | |? ? ? I N']; subst; clear N; in_list I end;
  repeat match goal with N : lists _ _ |- _ => inversion N; subst; clear N end.
Lemma shop_types : ordinary_types shop (dialect_options DPostgres (two_schemas false)) shop_refs.
Proof.
  constructor.
  - intros f d R M. destruct R as [c Ic If|c vs x y s Ic K I If]; [eapply shop_complete; eauto|].
    exfalso. revert K I. pattern c. apply shop_cases; [exact Ic|..]; intros K I; try discriminate; injection K as <-; simpl in I; intuition discriminate.
  - reflexivity.
  - intros c vs _ Ic. pattern c. apply shop_cases; [exact Ic|..]; intros K; try discriminate; injection K as <-; simpl; lia.
  - intros c Ic. pattern c. apply shop_cases; [exact Ic|..]; clear c Ic;
      ((exists ("m", "Person"); split; [simpl; tauto|]; split; [|reflexivity]; do 4 eexists; split; [reflexivity|]) ||
       (exists ("k", "Firm"); split; [simpl; tauto|]; split; [|reflexivity]; do 4 eexists; split; [reflexivity|]));
      (eexists; split; [left; reflexivity|eexists _, _; split; [reflexivity|simpl; tauto]]).
  - intros f d _ X. exfalso. apply X. reflexivity.
  - intros m n I. simpl in I. intuition congruence.
  - intros t s q I. simpl in I. destruct I as [I|[]]. injection I as <- <-. intros U. inversion U; subst. match goal with N : uses _ _ |- _ => inversion N end.
Qed.
Example C35_example_postgres : exists cat,
  dataclasses_to_catalog shop (dialect_options DPostgres (two_schemas false)) 9 (fun l => l) shop_refs = Ok cat /\ foreign_keys_closed cat /\ types_closed cat /\
  map (fun n => map e_name (n_enums n)) cat =
    [[Qualified (Some "sales") "Color"]; [Qualified (Some "people") "Mood"; Qualified (Some "people") "State"]] /\
  map (fun n => map s_name (n_structs n)) cat = [[Qualified (Some "sales") "Spot"]; [Qualified (Some "people") "Address"]].
Proof.
  destruct (dataclasses_to_catalog shop (dialect_options DPostgres (two_schemas false)) 9 (fun l => l) shop_refs) as [cat|] eqn:E; [|vm_compute in E; discriminate].
  exists cat. split; [reflexivity|]. split; [|split].
  - eapply C35_foreign_keys_closed; [apply shop_ordinary|apply shop_complete|exact E].
  - eapply C35_types_closed; [apply shop_ordinary|apply shop_types| |exact E]; reflexivity.
  - vm_compute in E. injection E as <-. split; reflexivity.
Qed.

(** ** Catalogs that are not closed (findings) *)

(** a reference for which the catalog has no table, or a table with another key *)
Definition dangling (cat : catalog) : bool :=
  existsb (fun n => existsb (fun t => existsb (fun k => match k with
    | CForeign _ _ q keys => negb (existsb (fun n' => String.eqb (n_name n') (match scope_id q with Some s => s | None => "" end) &&
                                             existsb (fun t' => qid_eqb (t_name t') q && list_eqb String.eqb (t_pk t') keys) (n_tables n')) cat)
    | _ => false end) (t_constraints t)) (n_tables n)) cat.
Lemma dangling_open cat : dangling cat = true -> ~ foreign_keys_closed cat.
Proof.
  intros D C. apply existsb_exists in D as (n & In_ & D). apply existsb_exists in D as (t & It & D). apply existsb_exists in D as (k & Ik & D).
  destruct k; try discriminate. destruct (C _ _ _ _ _ _ In_ It Ik (ref_foreign _ _ _ _)) as (t' & (n' & In' & Nn & It' & Nt) & Pk & _).
  apply Bool.negb_true_iff in D. rewrite <- Bool.not_true_iff_false in D. apply D. apply existsb_exists. exists n'. split; [exact In'|].
  apply andb_true_intro. split; [now apply String.eqb_eq|]. apply existsb_exists. exists t'. split; [exact It'|].
  apply andb_true_intro. split; [now apply qid_eqb_eq|]. apply (list_eqb_eq String.eqb String.eqb_eq); exact Pk.
Qed.
(** a column whose type is neither of the engine nor of the catalog *)
Definition named_type (s : sqltype) : option qid :=
  match s with TUser (Global _) | TArray (TUser (Global _)) => None | TUser q | TArray (TUser q) => Some q | _ => None end.
Definition type_missing (cat : catalog) (q : qid) : bool :=
  negb (existsb (fun n => String.eqb (n_name n) (match scope_id q with Some s => s | None => "" end) &&
        (existsb (fun e => qid_eqb (e_name e) q) (n_enums n) || existsb (fun s => qid_eqb (s_name s) q) (n_structs n))) cat).
Definition missing_type (cat : catalog) : bool :=
  existsb (fun n => existsb (fun t => existsb (fun c => match named_type (c_type c) with Some q => type_missing cat q | None => false end) (t_columns t)) (n_tables n)) cat.
Lemma missing_open cat : missing_type cat = true -> ~ types_closed cat.
Proof.
  intros D C. apply existsb_exists in D as (n & In_ & D). apply existsb_exists in D as (t & It & D). apply existsb_exists in D as (k & Ik & D).
  destruct (named_type (c_type k)) as [q|] eqn:Q; [|discriminate].
  assert (X : uses (c_type k) q /\ forall g, q <> Global g).
  { unfold named_type in Q. destruct (c_type k) as [s| | | | | | | | | | | | | | | | | | |p|]; try discriminate.
    - destruct s as [| | | | | | | | | | | | | | | | | | |p|]; try discriminate. destruct p; try discriminate; injection Q as <-; (split; [constructor; constructor|congruence]).
    - destruct p; try discriminate; injection Q as <-; (split; [constructor|congruence]). }
  destruct X as [U NG]. destruct (C n (c_type k) q In_ U) as [(g & G)|(n' & In' & Nn & L)]; [left; eauto|now apply NG in G|].
  apply Bool.negb_true_iff in D. rewrite <- Bool.not_true_iff_false in D. apply D. apply existsb_exists. exists n'. split; [exact In'|].
  apply andb_true_intro. split; [now apply String.eqb_eq|]. apply Bool.orb_true_iff.
  destruct L as [(e & Ie & Ne)|(s & Is & Ns)]; [left|right]; apply existsb_exists; [exists e|exists s]; (split; [assumption|now apply qid_eqb_eq]).
Qed.
Definition not_closed (env : cid -> classdef) (o : copts) (refs : list cid) : Prop :=
  exists cat, dataclasses_to_catalog env o 9 (fun l => l) refs = Ok cat /\ ~ foreign_keys_closed cat.
Definition types_not_closed (env : cid -> classdef) (o : copts) (refs : list cid) : Prop :=
  exists cat, dataclasses_to_catalog env o 9 (fun l => l) refs = Ok cat /\ ~ types_closed cat.
Ltac refute env o refs lem :=
  destruct (dataclasses_to_catalog env o 9 (fun l => l) refs) as [cat|] eqn:E; [|vm_compute in E; discriminate];
  exists cat; split; [reflexivity|]; apply lem; vm_compute in E; injection E as <-; reflexivity.

(** Two modules that are mapped to the same schema: the namespace of the second replaces the namespace of the first, and the
    tables of the first are lost. *)
Definition one_schema : goptions :=
  GOpts None None None [("m", Some "app"); ("k", Some "app")] true true (fun _ => false) false (fun _ => true).
Definition library : cid -> classdef := fun c =>
  if cid_eqb c ("m", "Author") then KData [Fld "id" (YAnn YInt [MPrimary]) DMissing] false None []
  else if cid_eqb c ("k", "Book") then KData [Fld "id" (YAnn YInt [MPrimary]) DMissing; Fld "author" (YCls ("m", "Author")) DMissing] false None []
  else KOther.
Theorem C35_shared_schema_refuted : not_closed library (dialect_options DPostgres one_schema) [("m", "Author"); ("k", "Book")].
Proof. unfold not_closed. refute library (dialect_options DPostgres one_schema) [("m", "Author"); ("k", "Book")] dangling_open. Qed.
Print Assumptions C35_shared_schema_refuted.
(** ... on MySQL and Oracle names are put after the schema, and both modules keep their tables, but classes of the same
    name in the two modules would share one table. *)

(** A class that is called like the join table of another: the join table replaces the table of the class. *)
Definition clash : cid -> classdef := fun c =>
  if cid_eqb c ("m", "User") then KData [Fld "id" (YAnn YInt [MPrimary]) DMissing; Fld "roles" (YList (YCls ("m", "Role"))) DMissing] false None []
  else if cid_eqb c ("m", "Role") then KData [Fld "id" (YAnn YInt [MPrimary]) DMissing] false None []
  else if cid_eqb c ("m", "User_roles_Role") then KData [Fld "id" (YAnn YInt [MPrimary]) DMissing] false None []
  else if cid_eqb c ("m", "Grant") then KData [Fld "id" (YAnn YInt [MPrimary]) DMissing; Fld "what" (YCls ("m", "User_roles_Role")) DMissing] false None []
  else KOther.
Definition m_schema (e : option enum_mode) : goptions := GOpts e None None [("m", Some "app"); ("k", Some "lib")] true true (fun _ => false) false (fun _ => true).
Theorem C35_join_table_name_refuted :
  not_closed clash (dialect_options DPostgres (m_schema None)) [("m", "User"); ("m", "Role"); ("m", "User_roles_Role"); ("m", "Grant")].
Proof.
  unfold not_closed. refute clash (dialect_options DPostgres (m_schema None)) [("m", "User"); ("m", "Role"); ("m", "User_roles_Role"); ("m", "Grant")] dangling_open.
Qed.
Print Assumptions C35_join_table_name_refuted.

(** PostgreSQL: an enumeration of a single member has no type, but columns have that type. *)
Definition single : cid -> classdef := fun c =>
  if cid_eqb c ("m", "Item") then KData [Fld "id" (YAnn YInt [MPrimary]) DMissing; Fld "kind" (YCls ("m", "Kind")) DMissing] false None []
  else if cid_eqb c ("m", "Kind") then KEnum [EStr "only"]
  else KOther.
Theorem C35_single_member_refuted : types_not_closed single (dialect_options DPostgres (m_schema None)) [("m", "Item"); ("m", "Kind")].
Proof. unfold types_not_closed. refute single (dialect_options DPostgres (m_schema None)) [("m", "Item"); ("m", "Kind")] missing_open. Qed.
Print Assumptions C35_single_member_refuted.

(** PostgreSQL: types of a module that has no entity are lost. *)
Definition types_only : cid -> classdef := fun c =>
  if cid_eqb c ("m", "Item") then KData [Fld "id" (YAnn YInt [MPrimary]) DMissing; Fld "kind" (YCls ("k", "Kind")) DMissing] false None []
  else if cid_eqb c ("k", "Kind") then KEnum [EStr "a"; EStr "b"]
  else KOther.
Theorem C35_module_without_entity_refuted : types_not_closed types_only (dialect_options DPostgres (m_schema None)) [("m", "Item"); ("k", "Kind")].
Proof. unfold types_not_closed. refute types_only (dialect_options DPostgres (m_schema None)) [("m", "Item"); ("k", "Kind")] missing_open. Qed.
Print Assumptions C35_module_without_entity_refuted.

(** Delta: an array of structures refers to a type, but structures become part of the column. *)
Definition array_of : cid -> classdef := fun c =>
  if cid_eqb c ("m", "Item") then KData [Fld "id" (YAnn YInt [MPrimary]) DMissing; Fld "spots" (YList (YCls ("m", "Spot"))) DMissing] false None []
  else if cid_eqb c ("m", "Spot") then KData [Fld "x" YInt DMissing] false None []
  else KOther.
Theorem C35_array_of_structures_refuted : types_not_closed array_of (dialect_options DDelta (m_schema None)) [("m", "Item"); ("m", "Spot")].
Proof. unfold types_not_closed. refute array_of (dialect_options DDelta (m_schema None)) [("m", "Item"); ("m", "Spot")] missing_open. Qed.
Print Assumptions C35_array_of_structures_refuted.

(** MySQL, if the user asks for enumeration types: columns refer to the type by another name than it is defined. *)
Definition pair_kind : cid -> classdef := fun c =>
  if cid_eqb c ("m", "Item") then KData [Fld "id" (YAnn YInt [MPrimary]) DMissing; Fld "kind" (YCls ("m", "Kind")) DMissing] false None []
  else if cid_eqb c ("m", "Kind") then KEnum [EStr "a"; EStr "b"]
  else KOther.
Theorem C35_unqualified_types_refuted : types_not_closed pair_kind (dialect_options DMySQL (m_schema (Some EmType))) [("m", "Item"); ("m", "Kind")].
Proof. unfold types_not_closed. refute pair_kind (dialect_options DMySQL (m_schema (Some EmType))) [("m", "Item"); ("m", "Kind")] missing_open. Qed.
Print Assumptions C35_unqualified_types_refuted.

(** An enumeration of objects that have an attribute [id]: the attribute replaces the key of the lookup table, and references
    are to a column of another type. *)
Definition value_id : cid -> classdef := fun c =>
  if cid_eqb c ("m", "Item") then KData [Fld "id" (YAnn YInt [MPrimary]) DMissing; Fld "kind" (YCls ("m", "Kind")) DMissing] false None []
  else if cid_eqb c ("m", "Kind") then KEnum [EObj ("m", "Code") [PStr "a"] "a"; EObj ("m", "Code") [PStr "b"] "b"]
  else if cid_eqb c ("m", "Code") then KData [Fld "id" YStr DMissing] false None []
  else KOther.
Theorem C35_value_attribute_refuted : not_closed value_id (dialect_options DMSSQL (m_schema None)) [("m", "Item"); ("m", "Kind")].
Proof.
  unfold not_closed. destruct (dataclasses_to_catalog value_id (dialect_options DMSSQL (m_schema None)) 9 (fun l => l) [("m", "Item"); ("m", "Kind")]) as [cat|] eqn:E;
    [|vm_compute in E; discriminate].
  exists cat. split; [reflexivity|]. vm_compute in E. injection E as <-. intros C.
  edestruct C as (t' & (n' & In' & Nn & It' & Nt) & Pk & F); [left; reflexivity|left; reflexivity|left; reflexivity|apply ref_foreign|].
  inversion F as [|? ? ? ? (s & (c1 & I1 & N1 & T1) & (c2 & I2 & N2 & T2)) _]; subst. clear F C. simpl in *.
  destruct In' as [<-|[]]. simpl in *. destruct It' as [<-|[<-|[]]]; simpl in *; try discriminate.
  destruct I1 as [<-|[<-|[]]]; simpl in *; try discriminate. destruct I2 as [<-|[]]; simpl in *; discriminate.
Qed.
Print Assumptions C35_value_attribute_refuted.
