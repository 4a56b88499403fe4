(** C59: the catalog of a set of classes can be created in the database, and dropped again. *)
From Verif Require Import PyStr QuoteModel ObjectDict ObjectDictProofs Types Objects SqlAst Ddl DbSpec CatSpec RefSpec PropsDdl PropsMutate Compat Convert ConvertDialects ConvertSpec
  CloseSpec CloseProofs6 CreateSpec CreateProofs4 PropsClose.
From Coq Require Import List Permutation Lia.
From stdpp Require Import gmap strings.
Open Scope string_scope.

(** what is assumed of the topological sort of structures, which is a library function: it returns the same classes, and a
    structure comes after the structures that it has as members *)
Definition sorts_structures (env : cid -> classdef) (refs : list cid) (topo : list cid -> list cid) : Prop :=
  (forall l, Permutation (topo l) l) /\
  forall l, (forall c, In c l <-> In c refs /\ structure env c) -> dependencies_first env (topo l).

(** The catalog is well-formed for every engine: objects are in their own schema, under different names, the columns of
    keys and constraints exist, keys are not nullable, ...; and it can be created in order: every type that a column or a
    member is made of is defined before it, every foreign key is to the primary key of a table. *)
Theorem C59_well_formed env o refs fuel topo cat d :
  ordinary env o refs -> ordinary_types env o refs -> creatable env o refs -> sorts_structures env refs topo ->
  dataclasses_to_catalog env o fuel topo refs = Ok cat -> cat_wf d cat /\ refs_closed cat.
Proof. intros HO HT HR [TP TD]. now apply creatable_catalog. Qed.
Print Assumptions C59_well_formed.

(** The script runs on every database in which the names are not used, and the database then has what it had before,
    and the objects of the catalog. *)
Theorem C59_classes_to_database env o refs fuel topo cat d cat' l D :
  ordinary env o refs -> ordinary_types env o refs -> creatable env o refs -> sorts_structures env refs topo ->
  dataclasses_to_catalog env o fuel topo refs = Ok cat -> cat_create d cat = Ok (cat', l) -> db_ok D -> unused cat D ->
  runs (engine_of d) (l ++ cat_add_constraints d cat') D (Db (db_schemas D ∪ cat_schemas cat) (cat_objs d cat ∪ db_objs D)).
Proof.
  intros HO HT HR TS H C OK U. destruct (C59_well_formed env o refs fuel topo cat d HO HT HR TS H) as [W R]. now apply C11_create_builds_the_catalog.
Qed.
Print Assumptions C59_classes_to_database.

(** ... and the script that drops the catalog restores the database. *)
Theorem C59_drop_restores env o refs fuel topo cat d c1 l1 c2 l2 D :
  ordinary env o refs -> ordinary_types env o refs -> creatable env o refs -> sorts_structures env refs topo ->
  dataclasses_to_catalog env o fuel topo refs = Ok cat -> cat_create d cat = Ok (c1, l1) -> cat_drop d cat = Ok (c2, l2) -> db_ok D -> unused cat D ->
  exists D', runs (engine_of d) (l1 ++ cat_add_constraints d c1) D D' /\ runs (engine_of d) (cat_drop_constraints c2 ++ l2) D' D.
Proof.
  intros HO HT HR TS H C1 C2 OK U. destruct (C59_well_formed env o refs fuel topo cat d HO HT HR TS H) as [W R].
  eapply C12_drop_undoes_create; eauto.
Qed.
Print Assumptions C59_drop_restores.

(** ** Example for PostgreSQL

    Two modules: an enumeration, a structure within a structure that has a member of the enumeration, an array of
    enumeration values, columns of types of the other module, foreign keys, a join table, generated keys. *)
Definition store : cid -> classdef := fun c =>
  if cid_eqb c ("m", "Person")
  then KData [Fld "id" (YAnn (YUnion [YInt; YDefault]) [MIdentity; MPrimary]) DMissing;
              Fld "name" (YAnn YStr [MMaxLength 64; MUnique]) DMissing;
              Fld "states" (YList (YCls ("m", "State"))) DMissing;
              Fld "friends" (YUnion [YList (YCls ("m", "Person")); YNone]) DMissing;
              Fld "address" (YCls ("m", "Address")) DMissing] false (Some "A person.") []
  else if cid_eqb c ("k", "Order")
  then KData [Fld "key" (YAnn YUuid [MPrimary]) DMissing;
              Fld "buyer" (YCls ("m", "Person")) DMissing;
              Fld "seller" (YUnion [YFwd ("m", "Person"); YNone]) DMissing;
              Fld "state" (YUnion [YCls ("m", "State"); YNone]) DMissing;
              Fld "target" (YCls ("m", "Address")) DMissing] false None []
  else if cid_eqb c ("m", "Address") then KData [Fld "city" YStr DMissing; Fld "spot" (YUnion [YCls ("m", "Spot"); YNone]) DMissing] false None []
  else if cid_eqb c ("m", "Spot") then KData [Fld "x" YInt DMissing; Fld "state" (YCls ("m", "State")) DMissing] false None []
  else if cid_eqb c ("m", "State") then KEnum [EStr "on"; EStr "off"]
  else KOther.
Definition store_refs : list cid := [("m", "Person"); ("k", "Order"); ("m", "Address"); ("m", "Spot"); ("m", "State")].
Definition addresses_last (l : list cid) : list cid :=
  (List.filter (fun c => negb (cid_eqb c ("m", "Address"))) l ++ List.filter (fun c => cid_eqb c ("m", "Address")) l)%list.
Notation store_opts := (dialect_options DPostgres (two_schemas false)).

Lemma store_cases c (P : cid -> Prop) : In c store_refs -> P ("m", "Person") -> P ("k", "Order") -> P ("m", "Address") -> P ("m", "Spot") -> P ("m", "State") -> P c.
Proof. unfold store_refs. simpl. intros H **. intuition (subst; assumption). Qed.
Ltac in_fields If := simpl in If; repeat (destruct If as [<-|If]; [|]); [..|destruct If].
Ltac in_list I := simpl in I; repeat (destruct I as [<-|I]; [|]); [..|destruct I].
Ltac mention M :=
  repeat match type of M with
  | CloseSpec.mentions (YCls _) _ => inversion M; subst; clear M
  | CloseSpec.mentions (YFwd _) _ => inversion M; subst; clear M
  | CloseSpec.mentions (YAnn _ _) _ => inversion M; subst; clear M; match goal with N : CloseSpec.mentions _ _ |- _ => rename N into M end
  | CloseSpec.mentions (YList _) _ => inversion M; subst; clear M; match goal with N : CloseSpec.mentions _ _ |- _ => rename N into M end
  | CloseSpec.mentions (YSet _) _ => inversion M; subst; clear M; match goal with N : CloseSpec.mentions _ _ |- _ => rename N into M end
  | CloseSpec.mentions (YUnion _) _ => let I := fresh "I" in inversion M as [| | |? ? ? I N| |]; subst; clear M; rename N into M; in_list I
  | CloseSpec.mentions _ _ => solve [inversion M]
  end.
Ltac tags T :=
  repeat match type of T with
  | tagged _ (YUnion _) => let I := fresh "I" in inversion T as [| |? ? I N]; subst; clear T; rename N into T; in_list I
  | tagged _ (YAnn _ _) => inversion T as [? ? I|? ? N|]; subst; clear T; [simpl in I; intuition discriminate|rename N into T]
  | tagged _ _ => solve [exfalso; eapply tagged_leaf; [|exact T]; exact Logic.I]
  end.
Lemma store_ordinary : ordinary store store_opts store_refs.
Proof.
  constructor.
  - intros c Ic. pattern c. apply store_cases; [exact Ic|..]; (split; [simpl; repeat (constructor; [simpl; intuition discriminate|]); constructor|simpl; intuition discriminate]).
  - intros c f Ic. pattern c. apply store_cases; [exact Ic|..]; clear c Ic; intros If T; in_fields If;
      try (eexists _, _; split; [reflexivity|simpl; tauto]); exfalso; simpl in T; tags T.
  - intros c Ic. pattern c. apply store_cases; [exact Ic|..]; no_underscore.
  - intros c f x Ic. pattern c. apply store_cases; [exact Ic|..]; clear c Ic; intros If M E; in_fields If; simpl in M; mention M; simpl in E; try discriminate; reflexivity.
  - intros m n m' n' I I' E. simpl in I, I'. destruct I as [I|[I|[]]], I' as [I'|[I'|[]]]; injection I as <- <-; injection I' as <- <-; try discriminate; auto.
  - discriminate.
  - apply C35_dialects.
  - intros c vs x y s Ic. pattern c. apply store_cases; [exact Ic|..]; intros K I; try discriminate; injection K as <-; simpl in I; intuition discriminate.
Qed.
Lemma store_relevant f (P : dfield -> Prop) : relevant store store_refs f -> (forall c g, In c store_refs -> In g (data_fields store c) -> P g) -> P f.
Proof.
  intros [c Ic If|c vs x y s Ic K I If] H; [eauto|]. exfalso. revert K I. pattern c. apply store_cases; [exact Ic|..]; intros K I; try discriminate; injection K as <-; simpl in I; intuition discriminate.
Qed.
Lemma store_types : ordinary_types store store_opts store_refs.
Proof.
  constructor.
  - intros f d R. pattern f. apply store_relevant; [exact R|]. clear f R. intros c f Ic. pattern c. apply store_cases; [exact Ic|..]; clear c Ic; intros If M; in_fields If; simpl in M;
      mention M; (split; [unfold store_refs; simpl; tauto|discriminate]).
  - reflexivity.
  - intros c vs _ Ic. pattern c. apply store_cases; [exact Ic|..]; intros K; try discriminate; injection K as <-; simpl; lia.
  - intros c Ic. pattern c. apply store_cases; [exact Ic|..]; clear c Ic;
      ((exists ("m", "Person"); split; [simpl; tauto|]; split; [|reflexivity]; do 4 eexists; split; [reflexivity|]) ||
       (exists ("k", "Order"); split; [simpl; tauto|]; split; [|reflexivity]; do 4 eexists; split; [reflexivity|]));
      (eexists; split; [left; reflexivity|eexists _, _; split; [reflexivity|simpl; tauto]]).
  - intros f d _ X. exfalso. apply X. reflexivity.
  - intros m n I. simpl in I. intuition congruence.
  - intros t s q I. simpl in I. destruct I as [I|[]]. injection I as <- <-. intros U. inversion U; subst. match goal with N : CloseSpec.uses _ _ |- _ => inversion N end.
Qed.
Ltac pywf := repeat (first
  [ apply wf_leaf; exact Logic.I
  | apply wf_list | apply wf_set
  | apply wf_ann; [|discriminate|discriminate]
  | apply wf_union; [repeat (constructor; [|]); [..|constructor]|simpl; lia|simpl; intuition discriminate|repeat (constructor; [simpl; intuition discriminate|]); constructor]
  | apply Forall_cons | apply Forall_nil ]).
Ltac no_none A := repeat match type of A with
  | admits_none (YUnion _) => let I := fresh "I" in inversion A as [|? ? I N|]; subst; clear A; rename N into A; in_list I
  | admits_none (YAnn _ _) => inversion A; subst; clear A; match goal with N : admits_none _ |- _ => rename N into A end
  | admits_none _ => solve [inversion A]
  end.
Ltac collection J := let e := fresh in let a := fresh in let b := fresh in let c := fresh in let A := fresh in let B := fresh in let C := fresh in let D := fresh in
  destruct J as (e & (a & b & c & A & B & C & D) & _); destruct A as [A|(? & A)]; [|try discriminate A]; try injection A as A; subst;
  (destruct B as [B|(? & B & P)]; [|try discriminate B]); try (subst; destruct C as [C|(? & C)]; [|try discriminate C]; try injection C as C; subst; destruct D; discriminate);
  try (exfalso; match goal with P : Permutation _ [_; YNone] |- _ => apply Permutation_sym, (Permutation_in YNone) in P; [|simpl; auto]; try injection B as B; subst; simpl in P; intuition discriminate end).
Ltac collected C := repeat match type of C with
  | collects (YUnion _) _ => let I := fresh "I" in inversion C as [| | |? ? ? I N]; subst; clear C; rename N into C; in_list I
  | collects (YAnn _ _) _ => inversion C; subst; clear C; match goal with N : collects _ _ |- _ => rename N into C end
  | collects (YList _) _ => inversion C; subst; clear C; match goal with N : CloseSpec.mentions _ _ |- _ => rename N into C end; mention C
  | collects (YSet _) _ => inversion C; subst; clear C; match goal with N : CloseSpec.mentions _ _ |- _ => rename N into C end; mention C
  | collects _ _ => solve [inversion C]
  end.
Ltac chosen C := repeat match type of C with
  | chooses (YUnion _) _ => let I := fresh "I" in inversion C as [| |? ? ? I N]; subst; clear C; [|rename N into C; in_list I]
  | chooses (YAnn _ _) _ => inversion C; subst; clear C; match goal with N : chooses _ _ |- _ => rename N into C end
  | chooses _ _ => solve [inversion C]
  end.
Ltac is_entity := do 4 eexists; split; [reflexivity|]; eexists; split; [left; reflexivity|eexists _, _; split; [reflexivity|simpl; tauto]].
Lemma store_creatable : creatable store store_opts store_refs.
Proof.
  constructor.
  - unfold store_refs. repeat (constructor; [simpl; intuition discriminate|]). constructor.
  - intros f R. pattern f. apply store_relevant; [exact R|]. clear f R. intros c f Ic. pattern c. apply store_cases; [exact Ic|..]; clear c Ic; intros If; in_fields If; cbn [f_type]; pywf.
  - intros f R. pattern f. apply store_relevant; [exact R|]. clear f R. intros c f Ic. pattern c. apply store_cases; [exact Ic|..]; clear c Ic; intros If T; in_fields If; cbn [f_type f_default] in *;
      (split; [|now left]); try (exfalso; tags T; fail); intros A; no_none A.
  - intros c f Ic. pattern c. apply store_cases; [exact Ic|..]; clear c Ic; intros If (t & ms & E & I); in_fields If; cbn [f_type] in *; try discriminate;
      (split; [intros A; no_none A|]); (split; [intros J; collection J; fail|]); (split; [intros d C; collected C|intros d M; mention M]).
  - intros c f Ic. pattern c. apply store_cases; [exact Ic|..]; clear c Ic; intros If J T; in_fields If; cbn [f_type f_default] in *; try (tags T; fail); collection J.
  - intros c vs _ Ic. pattern c. apply store_cases; [exact Ic|..]; intros K; try discriminate; injection K as <-; simpl; repeat (constructor; [simpl; intuition discriminate|]); constructor.
  - intros c f e l _ Ic. pattern c. apply store_cases; [exact Ic|..]; clear c Ic; intros If M E C; in_fields If; cbn [f_type] in *; chosen C; mention M;
      try (destruct E as (vs & E); discriminate E); eexists; reflexivity.
  - discriminate.
  - intros m f d _ F C. destruct F as [c Ic <- If|c vs x y s Ic _ K I If].
    + revert If. pattern c. apply store_cases; [exact Ic|..]; clear c Ic; intros If; in_fields If; cbn [f_type] in *; collected C; try (right; reflexivity); left; is_entity.
    + exfalso. revert K I. pattern c. apply store_cases; [exact Ic|..]; intros K I; try discriminate; injection K as <-; simpl in I; intuition discriminate.
  - intros _ m m' n' I. simpl in I. intuition discriminate.
Qed.
Lemma filters_perm {A} (g : A -> bool) l : Permutation (List.filter (fun x => negb (g x)) l ++ List.filter g l) l.
Proof.
  induction l as [|x l IH]; simpl; [constructor|]. destruct (g x); simpl; [|now constructor].
  rewrite <- Permutation_middle. now constructor.
Qed.
Lemma before_last {A} (a : list A) : forall l1 b l2 x y, (a ++ b)%list = (l1 ++ x :: l2)%list -> ~ In x a -> In y a -> In y l1.
Proof.
  induction a as [|z a IH]; intros l1 b l2 x y E N I; [destruct I|]. destruct l1 as [|w l1]; simpl in E.
  - injection E as -> _. destruct N. now left.
  - injection E as <- E. destruct I as [<-|I]; [now left|]. right. eapply IH; eauto. intros J. apply N. now right.
Qed.
Lemma store_sorts : sorts_structures store store_refs addresses_last.
Proof.
  split; [intros l; apply filters_perm|]. intros l H l1 c l2 f d E If M Id.
  assert (Ic : In c l) by (apply (Permutation_in _ (filters_perm (fun c => cid_eqb c ("m", "Address")) l)); unfold addresses_last in E; rewrite E; apply in_app_iff; simpl; auto).
  apply H in Ic as [Ic St].
  assert (Id' : In d l) by (apply (Permutation_in _ (filters_perm (fun c => cid_eqb c ("m", "Address")) l)); exact Id). apply H in Id' as [_ Sd].
  assert (X : c = ("m", "Address") /\ d = ("m", "Spot")).
  { revert If St. pattern c. apply store_cases; [exact Ic|..]; intros If St; in_fields If; cbn [f_type] in M; mention M; auto;
      try (exfalso; apply St; is_entity); exfalso; destruct Sd as [(fs & a & b & ps & K) _]; discriminate K. }
  destruct X as [-> ->]. unfold addresses_last in *. apply in_app_iff in Id as [Id|Id]; [|apply filter_In in Id as [_ Id]; discriminate].
  eapply before_last; [exact E| |exact Id]. intros J. apply filter_In in J as [_ J]. discriminate.
Qed.
(** types in the order in which they are created, tables and what they refer to *)
Example C59_example_postgres : exists cat cat' l, dataclasses_to_catalog store store_opts 9 addresses_last store_refs = Ok cat /\
  cat_create DPg cat = Ok (cat', l) /\ map n_name cat' = ["people"; "sales"] /\
  map (fun n => map s_name (n_structs n)) cat' = [[Qualified (Some "people") "Spot"; Qualified (Some "people") "Address"]; []] /\
  table_names cat' = [("people", [Qualified (Some "people") "Person"; Qualified (Some "people") "Person_friends_Person"]); ("sales", [Qualified (Some "sales") "Order"])] /\
  forall D, db_ok D -> unused cat D -> runs eng_pg (l ++ cat_add_constraints DPg cat') D (plus_cat DPg cat D).
Proof.
  destruct (dataclasses_to_catalog store store_opts 9 addresses_last store_refs) as [cat|] eqn:E; [|vm_compute in E; discriminate].
  destruct (cat_create DPg cat) as [[cat' l]|] eqn:F; [|exfalso; revert F; vm_compute in E; injection E as <-; vm_compute; discriminate].
  exists cat, cat', l. split; [reflexivity|]. split; [exact F|]. pose proof F as F'. pose proof E as E'. vm_compute in E'. injection E' as E'. rewrite <- E' in F'. vm_compute in F'. injection F' as F1 F2.
  split; [rewrite <- F1; reflexivity|]. split; [rewrite <- F1; reflexivity|]. split; [rewrite <- F1; reflexivity|].
  intros D OK U. exact (C59_classes_to_database store store_opts store_refs 9 addresses_last cat DPg cat' l D store_ordinary store_types store_creatable store_sorts E F OK U).
Qed.

(** ** Example for SQL Server, MySQL and Oracle: the classes of C35 *)
Definition flat_dialect (d : ConvertDialects.dialect) : bool := match d with ConvertDialects.DMSSQL | ConvertDialects.DMySQL | ConvertDialects.DOracle => true | _ => false end.
Lemma shop_relevant f (P : dfield -> Prop) : relevant shop shop_refs f -> (forall c g, In c shop_refs -> In g (data_fields shop c) -> P g) -> P f.
Proof.
  intros [c Ic If|c vs x y s Ic K I If] H; [eauto|]. exfalso. revert K I. pattern c. apply shop_cases; [exact Ic|..]; intros K I; try discriminate; injection K as <-; simpl in I; intuition discriminate.
Qed.
Lemma shop_flat_types d r : flat_dialect d = true -> ordinary_types shop (dialect_options d (two_schemas r)) shop_refs.
Proof.
  intros Fd. assert (NE : o_enum (dialect_options d (two_schemas r)) <> EmType /\ o_struct (dialect_options d (two_schemas r)) <> SmType /\ o_array (dialect_options d (two_schemas r)) <> AmArray)
    by (destruct d, r; simpl in *; repeat split; discriminate).
  constructor.
  - intros f x R M. destruct R as [c Ic If|c vs z y s Ic K I If]; [eapply shop_complete; eauto|].
    exfalso. revert K I. pattern c. apply shop_cases; [exact Ic|..]; intros K I; try discriminate; injection K as <-; simpl in I; intuition discriminate.
  - tauto.
  - tauto.
  - intros c Ic. pattern c. apply shop_cases; [exact Ic|..]; clear c Ic;
      ((exists ("m", "Person"); split; [simpl; tauto|]; split; [|reflexivity]; is_entity) || (exists ("k", "Firm"); split; [simpl; tauto|]; split; [|reflexivity]; is_entity)).
  - tauto.
  - intros m n I. destruct d; simpl in I; intuition congruence.
  - apply C35_dialects.
Qed.
Lemma shop_creatable d r : flat_dialect d = true -> creatable shop (dialect_options d (two_schemas r)) shop_refs.
Proof.
  intros Fd. assert (NE : o_enum (dialect_options d (two_schemas r)) <> EmType /\ o_struct (dialect_options d (two_schemas r)) <> SmType /\ o_array (dialect_options d (two_schemas r)) <> AmArray)
    by (destruct d, r; simpl in *; repeat split; discriminate).
  constructor; try tauto.
  - unfold shop_refs. repeat (constructor; [simpl; intuition discriminate|]). constructor.
  - intros f R. pattern f. apply shop_relevant; [exact R|]. clear f R. intros c f Ic. pattern c. apply shop_cases; [exact Ic|..]; clear c Ic; intros If; in_fields If; cbn [f_type]; pywf.
  - intros f R. pattern f. apply shop_relevant; [exact R|]. clear f R. intros c f Ic. pattern c. apply shop_cases; [exact Ic|..]; clear c Ic; intros If T; in_fields If; cbn [f_type f_default] in *;
      (split; [|now left]); try (exfalso; tags T; fail); intros A; no_none A.
  - intros c f Ic. pattern c. apply shop_cases; [exact Ic|..]; clear c Ic; intros If (t & ms & E & I); in_fields If; cbn [f_type] in *; try discriminate;
      (split; [intros A; no_none A|]); (split; [intros J; collection J; fail|]); (split; [intros x C; collected C|intros x M; mention M]).
  - intros c f Ic. pattern c. apply shop_cases; [exact Ic|..]; clear c Ic; intros If J T; in_fields If; cbn [f_type f_default] in *; try (tags T; fail); collection J.
Qed.
Lemma shop_sorts : sorts_structures shop shop_refs addresses_last.
Proof.
  split; [intros l; apply filters_perm|]. intros l H l1 c l2 f d E If M Id.
  assert (Ic : In c l) by (apply (Permutation_in _ (filters_perm (fun c => cid_eqb c ("m", "Address")) l)); unfold addresses_last in E; rewrite E; apply in_app_iff; simpl; auto).
  apply H in Ic as [Ic St].
  assert (Id' : In d l) by (apply (Permutation_in _ (filters_perm (fun c => cid_eqb c ("m", "Address")) l)); exact Id). apply H in Id' as [_ Sd].
  assert (X : c = ("m", "Address") /\ d = ("k", "Spot")).
  { revert If St. pattern c. apply shop_cases; [exact Ic|..]; intros If St; in_fields If; cbn [f_type] in M; mention M; auto;
      try (exfalso; apply St; is_entity); exfalso; destruct Sd as [(fs & a & b & ps & K) _]; discriminate K. }
  destruct X as [-> ->]. unfold addresses_last in *. apply in_app_iff in Id as [Id|Id]; [|apply filter_In in Id as [_ Id]; discriminate].
  eapply before_last; [exact E| |exact Id]. intros J. apply filter_In in J as [_ J]. discriminate.
Qed.
Example C59_example_dialects d r dd fuel cat cat' l D : flat_dialect d = true ->
  dataclasses_to_catalog shop (dialect_options d (two_schemas r)) fuel addresses_last shop_refs = Ok cat -> cat_create dd cat = Ok (cat', l) -> db_ok D -> unused cat D ->
  runs (engine_of dd) (l ++ cat_add_constraints dd cat') D (plus_cat dd cat D).
Proof.
  intros Fd H C OK U. exact (C59_classes_to_database shop _ shop_refs fuel addresses_last cat dd cat' l D (shop_ordinary d r) (shop_flat_types d r Fd) (shop_creatable d r Fd) shop_sorts H C OK U).
Qed.
Definition empty_db : db := Db ∅ ∅.
Lemma empty_ok : db_ok empty_db.
Proof. intros k x H. simpl in H. rewrite lookup_empty in H. discriminate. Qed.
Lemma empty_unused cat : unused cat empty_db.
Proof. split; [intros k _; apply lookup_empty|]. intros n _. right. simpl. set_solver. Qed.
Definition statements (d : ConvertDialects.dialect) (r : bool) (dd : Ddl.dialect) : res nat :=
  match dataclasses_to_catalog shop (dialect_options d (two_schemas r)) 9 addresses_last shop_refs with
  | Ok cat => match cat_create dd cat with Ok (cat', l) => Ok (length l + length (cat_add_constraints dd cat'))%nat | Err e => Err e end
  | Err e => Err e end.
Example C59_example_statements :
  (statements DMSSQL true Ddl.DMSSQL, statements DMySQL false Ddl.DMySQL, statements DOracle true Ddl.DOracle) = (Ok 22%nat, Ok 12%nat, Ok 27%nat).
Proof. vm_compute. reflexivity. Qed.

(** ** Classes whose catalog cannot be created (findings) *)
Definition cannot_create (env : cid -> classdef) (o : copts) (refs : list cid) (d : Ddl.dialect) : Prop :=
  exists cat cat' l, dataclasses_to_catalog env o 9 (fun l => l) refs = Ok cat /\ cat_create d cat = Ok (cat', l) /\
                     forall D', ~ runs (engine_of d) (l ++ cat_add_constraints d cat') empty_db D'.
Lemma runs_exec E l : forall D D', runs E l D D' -> exec_all E l D = Some D'.
Proof.
  induction l as [|s l IH]; intros D D' R; [simpl in *; now subst|]. destruct R as (_ & D1 & X & _ & R). cbn [exec_all]. rewrite X. cbn [mbind option_bind]. now apply IH.
Qed.
Ltac no_run env o refs d :=
  destruct (dataclasses_to_catalog env o 9 (fun l => l) refs) as [cat|] eqn:E; [|vm_compute in E; discriminate];
  destruct (cat_create d cat) as [[cat' l]|] eqn:F; [|exfalso; revert F; vm_compute in E; injection E as <-; vm_compute; discriminate];
  exists cat, cat', l; split; [reflexivity|]; split; [exact F|]; vm_compute in E; injection E as <-; vm_compute in F; injection F as <- <-.

(** PostgreSQL: an enumeration that is extended by strings becomes a type and a table of the same name. *)
Definition moody : cid -> classdef := fun c =>
  if cid_eqb c ("m", "Person") then KData [Fld "id" (YAnn YInt [MPrimary]) DMissing; Fld "mood" (YUnion [YCls ("m", "Mood"); YStr]) DMissing] false None []
  else if cid_eqb c ("m", "Mood") then KEnum [EStr "good"; EStr "bad"]
  else KOther.
Theorem C59_extensible_enumeration_refuted : cannot_create moody (dialect_options DPostgres (m_schema None)) [("m", "Person"); ("m", "Mood")] DPg.
Proof.
  unfold cannot_create. no_run moody (dialect_options DPostgres (m_schema None)) [("m", "Person"); ("m", "Mood")] DPg.
  intros D' R. apply runs_exec in R. revert R. vm_compute. discriminate.
Qed.
Print Assumptions C59_extensible_enumeration_refuted.

(** A collection that is declared to be unique: the constraint is on a column that the table does not have. *)
Definition unique_list : cid -> classdef := fun c =>
  if cid_eqb c ("m", "Person") then KData [Fld "id" (YAnn YInt [MPrimary]) DMissing; Fld "pets" (YAnn (YList (YCls ("m", "Pet"))) [MUnique]) DMissing] false None []
  else if cid_eqb c ("m", "Pet") then KData [Fld "id" (YAnn YInt [MPrimary]) DMissing] false None []
  else KOther.
Theorem C59_unique_collection_refuted : cannot_create unique_list (dialect_options DPostgres (m_schema None)) [("m", "Person"); ("m", "Pet")] DPg.
Proof.
  unfold cannot_create. no_run unique_list (dialect_options DPostgres (m_schema None)) [("m", "Person"); ("m", "Pet")] DPg.
  intros D' R. apply runs_exec in R. revert R. vm_compute. discriminate.
Qed.
Print Assumptions C59_unique_collection_refuted.

(** PostgreSQL: an array of an enumeration of another module: schemas are not sorted by it, and the table comes before the type. *)
Definition far_array : cid -> classdef := fun c =>
  if cid_eqb c ("m", "Item") then KData [Fld "id" (YAnn YInt [MPrimary]) DMissing; Fld "kinds" (YList (YCls ("k", "Kind"))) DMissing] false None []
  else if cid_eqb c ("k", "Zoo") then KData [Fld "id" (YAnn YInt [MPrimary]) DMissing] false None []
  else if cid_eqb c ("k", "Kind") then KEnum [EStr "a"; EStr "b"]
  else KOther.
Theorem C59_array_of_other_module_refuted : cannot_create far_array (dialect_options DPostgres (m_schema None)) [("m", "Item"); ("k", "Zoo"); ("k", "Kind")] DPg.
Proof.
  unfold cannot_create. no_run far_array (dialect_options DPostgres (m_schema None)) [("m", "Item"); ("k", "Zoo"); ("k", "Kind")] DPg.
  intros D' R. match type of R with runs _ ?l _ _ => assert (X : exists D1, exec_all eng_pg (firstn 3 l) empty_db = Some D1 /\
    (exists tb c, db_objs D1 !! ("app", "Item") = Some (OTable tb) /\ dt_cols tb !! "kinds" = Some c /\ dc_type c = TArray (TUser (Qualified (Some "lib") "Kind"))) /\
    db_objs D1 !! ("lib", "Kind") = None) end.
  { eexists. split; [vm_compute; reflexivity|]. split; [|vm_compute; reflexivity]. eexists _, _. split; [vm_compute; reflexivity|]. split; vm_compute; reflexivity. }
  destruct X as (D1 & X & (tb & c & Q1 & Q2 & Q3) & Q4). apply (not_runs _ _ _ 2%nat D1 X); [|simpl; lia|eauto].
  apply (dangling_type D1 _ tb "kinds" c (Qualified (Some "lib") "Kind") Q1 Q2); [rewrite Q3; simpl; auto|exact Q4].
Qed.
Print Assumptions C59_array_of_other_module_refuted.
