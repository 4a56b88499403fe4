(** C61: the script of a set of classes: as text, which the engine reads, and which creates the objects of the classes. *)
From Verif Require Import PyStr QuoteModel QuoteSpec ObjectDict ObjectDictProofs Types Objects SqlAst Ddl SqlText TextSpec CatTextSpec Render DbSpec CatSpec RefSpec PropsText PropsDdl PropsMutate
  Compat Convert ConvertDialects ConvertSpec CloseSpec CreateSpec PropsClose PropsCreate WriteSpec WriteProofs3.
From Coq Require Import List Permutation Lia.
From stdpp Require Import gmap strings.
Open Scope string_scope.

(** The engine reads the text of the script as one command per statement, each saying what is meant (C54): the names, types,
    defaults, constraints and labels that the classes have.  Run on a database that does not use the names, the statements
    add the objects of the catalog, and change nothing else. *)
Theorem C61_classes_to_script env o refs fuel topo cat d cat' l text D :
  ordinary env o refs -> ordinary_types env o refs -> creatable env o refs -> sorts_structures env refs topo -> writable d env o refs ->
  dataclasses_to_catalog env o fuel topo refs = Ok cat -> cat_create d cat = Ok (cat', l) ->
  render_script d (l ++ cat_add_constraints d cat') = Ok (Some text) -> db_ok D -> unused cat D ->
  exists ps, read d text = Some ps /\ Forall2 (says d) ps (l ++ cat_add_constraints d cat') /\
             runs (engine_of d) (l ++ cat_add_constraints d cat') D (Db (db_schemas D ∪ cat_schemas cat) (cat_objs d cat ∪ db_objs D)).
Proof.
  intros HO HT HR TS HW H C T OK U. pose proof (catalog_text d env o refs fuel topo cat HO HT HR HW (proj1 TS) H) as X.
  destruct (C54_create_script d cat cat' _ _ X C T) as (ps & R & F). exists ps. split; [exact R|]. split; [exact F|].
  exact (C59_classes_to_database env o refs fuel topo cat d cat' l D HO HT HR TS H C OK U).
Qed.
Print Assumptions C61_classes_to_script.

(** ... and so is the text of the script that removes the objects again. *)
Theorem C61_drop_script env o refs fuel topo cat d cat' l text :
  ordinary env o refs -> ordinary_types env o refs -> creatable env o refs -> sorts_structures env refs topo -> writable d env o refs ->
  dataclasses_to_catalog env o fuel topo refs = Ok cat -> cat_drop d cat = Ok (cat', l) -> render_script d l = Ok (Some text) ->
  exists ps, read d text = Some ps /\ Forall2 (says d) ps l.
Proof.
  intros HO HT HR TS HW H C T. pose proof (catalog_text d env o refs fuel topo cat HO HT HR HW (proj1 TS) H) as X.
  exact (C54_drop_script d cat cat' l text X C T).
Qed.
Print Assumptions C61_drop_script.

(** The types that the generators put in place of Python types can be written, on every engine. *)
Theorem C61_dialects d dd g t s : In (t, s) (o_subst (dialect_options d g)) -> type_ok dd s /\ forall vs, base_type s <> TEnum vs.
Proof. intros I. destruct d; simpl in I; repeat (destruct I as [I|I]; [injection I as <- <-; split; [exact Logic.I|discriminate]|]); destruct I. Qed.
Print Assumptions C61_dialects.


(** ** Example: the classes of the example of C59, on PostgreSQL and, as [shop], on the others *)
Lemma store_writable d : writable d store store_opts store_refs.
Proof.
  constructor.
  - intros f R. pattern f. apply store_relevant; [exact R|]. clear f R. intros c f Ic. pattern c. apply store_cases; [exact Ic|..]; clear c Ic; intros If; in_fields If; exact Logic.I.
  - intros c vs e Ic. pattern c. apply store_cases; [exact Ic|..]; clear c Ic; intros K I; try discriminate; injection K as <-; in_list I; (split; [destruct d; repeat split|destruct d; repeat split]).
  - intros c [Ic|(e & vs & x & s & Ic & K & I)].
    + pattern c. apply store_cases; [exact Ic|..]; clear c Ic; simpl; try exact Logic.I; intros ->; (split; [intros x E; try discriminate E; injection E as <-; repeat split|intros n x []]).
    + exfalso. revert K I. pattern e. apply store_cases; [exact Ic|..]; intros K I; try discriminate; injection K as <-; simpl in I; intuition discriminate.
  - intros v (e & vs & x & s & Ic & K & I). exfalso. revert K I. pattern e. apply store_cases; [exact Ic|..]; intros K I; try discriminate; injection K as <-; simpl in I; intuition discriminate.
  - intros c fs a x ps Ic. pattern c. apply store_cases; [exact Ic|..]; clear c Ic; intros K; try discriminate; injection K as <- _ _ _; discriminate.
  - discriminate.
  - intros t s I. exact (C61_dialects DPostgres d (two_schemas false) t s I).
  - intros _ m n I. simpl in I. destruct I as [I|[I|[]]]; injection I as <- <-; reflexivity.
Qed.
Example C61_example_postgres : exists cat cat' l text, dataclasses_to_catalog store store_opts 9 addresses_last store_refs = Ok cat /\ cat_create DPg cat = Ok (cat', l) /\
  render_script DPg (l ++ cat_add_constraints DPg cat') = Ok (Some text) /\ (1500 < String.length text)%nat /\
  forall D, db_ok D -> unused cat D -> exists ps, read DPg text = Some ps /\ Forall2 (says DPg) ps (l ++ cat_add_constraints DPg cat') /\
    runs eng_pg (l ++ cat_add_constraints DPg cat') D (plus_cat DPg cat D).
Proof.
  destruct (dataclasses_to_catalog store store_opts 9 addresses_last store_refs) as [cat|] eqn:E; [|vm_compute in E; discriminate].
  destruct (cat_create DPg cat) as [[cat' l]|] eqn:F; [|exfalso; revert F; vm_compute in E; injection E as <-; vm_compute; discriminate].
  destruct (render_script DPg (l ++ cat_add_constraints DPg cat')) as [[text|]|] eqn:T;
    try (exfalso; revert T; vm_compute in E; injection E as <-; vm_compute in F; injection F as <- <-; vm_compute; discriminate).
  exists cat, cat', l, text. split; [reflexivity|]. split; [exact F|]. split; [exact T|]. split.
  - pose proof T as T'. pose proof F as F'. pose proof E as E'. vm_compute in E'. injection E' as E'. rewrite <- E' in F'. vm_compute in F'. injection F' as F1 F2. rewrite <- F1, <- F2 in T'. vm_compute in T'. injection T' as <-.
    apply Nat.ltb_lt. vm_compute. reflexivity.
  - intros D OK U. exact (C61_classes_to_script store store_opts store_refs 9 addresses_last cat DPg cat' l text D store_ordinary store_types store_creatable store_sorts (store_writable DPg) E F T OK U).
Qed.
Lemma shop_writable dd d r : flat_dialect d = true -> writable dd shop (dialect_options d (two_schemas r)) shop_refs.
Proof.
  intros Fd. constructor.
  - intros f R. pattern f. apply shop_relevant; [exact R|]. clear f R. intros c f Ic. pattern c. apply shop_cases; [exact Ic|..]; clear c Ic; intros If; in_fields If; exact Logic.I.
  - intros c vs e Ic. pattern c. apply shop_cases; [exact Ic|..]; clear c Ic; intros K I; try discriminate; injection K as <-; in_list I; (split; [destruct dd; repeat split|destruct dd; repeat split]).
  - intros c [Ic|(e & vs & x & s & Ic & K & I)].
    + pattern c. apply shop_cases; [exact Ic|..]; clear c Ic; simpl; try exact Logic.I; intros ->; (split; [intros x E; try discriminate E; injection E as <-; repeat split|intros n x []]).
    + exfalso. revert K I. pattern e. apply shop_cases; [exact Ic|..]; intros K I; try discriminate; injection K as <-; simpl in I; intuition discriminate.
  - intros v (e & vs & x & s & Ic & K & I). exfalso. revert K I. pattern e. apply shop_cases; [exact Ic|..]; intros K I; try discriminate; injection K as <-; simpl in I; intuition discriminate.
  - intros c fs a x ps Ic. pattern c. apply shop_cases; [exact Ic|..]; clear c Ic; intros K; try discriminate; injection K as <- _ _ _; discriminate.
  - destruct d; try discriminate Fd; discriminate.
  - intros t s I. exact (C61_dialects d dd (two_schemas r) t s I).
  - intros _ m n I. assert (I' : In (m, Some n) [("m", Some "people"); ("k", Some "sales")]) by (destruct d; try discriminate Fd; exact I). destruct I' as [I'|[I'|[]]]; injection I' as <- <-; reflexivity.
Qed.
(** SQL Server, MySQL and Oracle *)
Example C61_example_dialects d r dd fuel cat cat' l text D : flat_dialect d = true ->
  dataclasses_to_catalog shop (dialect_options d (two_schemas r)) fuel addresses_last shop_refs = Ok cat -> cat_create dd cat = Ok (cat', l) ->
  render_script dd (l ++ cat_add_constraints dd cat') = Ok (Some text) -> db_ok D -> unused cat D ->
  exists ps, read dd text = Some ps /\ Forall2 (says dd) ps (l ++ cat_add_constraints dd cat') /\ runs (engine_of dd) (l ++ cat_add_constraints dd cat') D (plus_cat dd cat D).
Proof.
  intros Fd H C T OK U. exact (C61_classes_to_script shop _ shop_refs fuel addresses_last cat dd cat' l text D (shop_ordinary d r) (shop_flat_types d r Fd) (shop_creatable d r Fd) shop_sorts (shop_writable dd d r Fd) H C T OK U).
Qed.
Definition script_length (d : ConvertDialects.dialect) (r : bool) (dd : Ddl.dialect) : res (option nat) :=
  match dataclasses_to_catalog shop (dialect_options d (two_schemas r)) 9 addresses_last shop_refs with
  | Ok cat => match cat_create dd cat with
              | Ok (cat', l) => match render_script dd (l ++ cat_add_constraints dd cat') with Ok x => Ok (option_map String.length x) | Err e => Err e end
              | Err e => Err e end
  | Err e => Err e end.
Example C61_example_texts :
  (script_length DMSSQL true Ddl.DMSSQL, script_length DMySQL false Ddl.DMySQL, script_length DOracle true Ddl.DOracle) = (Ok (Some 3497), Ok (Some 2306), Ok (Some 3597))%nat.
Proof. vm_compute. reflexivity. Qed.
