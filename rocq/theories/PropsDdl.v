(** C11, C12: the CREATE and DROP scripts of a catalog.  [runs] (DbSpec.v) executes a script statement by
    statement; each statement must succeed and leave a database whose references all resolve. *)
From Verif Require Import PyStr QuoteModel ObjectDict Types Objects SqlAst Ddl Mutate DbSpec CatSpec MutSpec RefSpec KeySpec RunProofs2 RunProofs5 ExCat.
From stdpp Require Import gmap strings.
Open Scope string_scope.
Open Scope list_scope.

(** The CREATE script followed by the constraint script runs on every consistent database that has none of
    the names, and the result is that database plus exactly the schemas and objects the catalog describes. *)
Theorem C11_create_builds_the_catalog : forall (d : dialect) (c c' : catalog) (l : list stmt) (D : db),
  cat_create d c = Ok (c', l) -> cat_wf d c -> refs_closed c -> db_ok D -> unused c D ->
  runs (engine_of d) (l ++ cat_add_constraints d c') D
       (Db (db_schemas D ∪ cat_schemas c) (cat_objs d c ∪ db_objs D)).
Proof. intros d c c' l D H W R K U. exact (proj1 (create_runs d c c' l D H W R K U)). Qed.
Print Assumptions C11_create_builds_the_catalog.

(** What was there before is still there; nothing else is there than the catalog. *)
Theorem C11_create_frame : forall (d : dialect) (c : catalog) (D : db) (k : okey) (x : dbobj),
  unused c D ->
  (cat_objs d c ∪ db_objs D) !! k = Some x <-> cat_objs d c !! k = Some x \/ db_objs D !! k = Some x.
Proof.
  intros d c D k x [U _]. rewrite lookup_union_Some; [reflexivity|].
  apply map_disjoint_spec. intros i a b Ha Hb. unfold cat_objs in Ha. apply elem_of_list_to_map_2, elem_of_list_In, in_flat_map in Ha as (n & In_ & Ha).
  rewrite U in Hb; [discriminate|]. unfold cat_keys. apply in_map_iff. unfold ns_objs in Ha. rewrite !in_app_iff, !in_map_iff in Ha.
  destruct Ha as [(e & [= <- <-] & Ie)|[(e & [= <- <-] & Ie)|(e & [= <- <-] & Ie)]]; eexists; (split; [reflexivity|]);
    apply in_flat_map; exists n; (split; [exact In_|]); unfold ns_names; rewrite !in_app_iff, !in_map_iff; eauto.
Qed.
Print Assumptions C11_create_frame.

(** Dropping the constraints and then the objects and schemas restores the database before creation. *)
Theorem C12_drop_undoes_create : forall (d : dialect) (c c1 c2 : catalog) (l1 l2 : list stmt) (D : db),
  cat_create d c = Ok (c1, l1) -> cat_drop d c = Ok (c2, l2) -> cat_wf d c -> refs_closed c -> db_ok D -> unused c D ->
  exists D', runs (engine_of d) (l1 ++ cat_add_constraints d c1) D D'
             /\ runs (engine_of d) (cat_drop_constraints c2 ++ l2) D' D.
Proof.
  intros d c c1 c2 l1 l2 D H1 H2 W R K U. destruct (create_runs d c c1 l1 D H1 W R K U) as [X Y]. exists (plus_cat d c D). split; [exact X|].
  exact (drop_runs d c c2 l2 D H2 W R K U Y).
Qed.
Print Assumptions C12_drop_undoes_create.

(** The same for a catalog that is present in the database, however it came to be there. *)
Theorem C12_drop_removes_exactly_the_catalog : forall (d : dialect) (c c' : catalog) (l : list stmt) (D : db),
  cat_drop d c = Ok (c', l) -> cat_wf d c -> refs_closed c -> db_ok D -> unused c D -> db_ok (plus_cat d c D) ->
  runs (engine_of d) (cat_drop_constraints c' ++ l) (plus_cat d c D) D.
Proof. exact drop_runs. Qed.
Print Assumptions C12_drop_removes_exactly_the_catalog.

(** Example: two namespaces, enumeration and composite type, foreign keys within and across namespaces, on a
    database that has another table. *)
Definition ex_db : db :=
  Db {["other"]} {[ ("other", "t") := OTable (DbTab {[ "id" := DbCol int4 false None false None ]} ["id"] ∅ None) ]}.
Example ex_db_ok : db_ok ex_db.
Proof.
  intros k o H. simpl in H. apply lookup_singleton_Some in H as [<- <-]. split; [|now vm_compute]. split.
  - intros n c H. simpl in H. apply lookup_singleton_Some in H as [<- <-]. intros q [].
  - intros n c H. simpl in H. rewrite lookup_empty in H. discriminate.
Qed.
Example ex_unused : unused cat1 ex_db.
Proof. split; [intros k H; cases; reflexivity|]. intros n H. right. cases; simpl; set_solver. Qed.
Example ex_cat1_creates : exists c' l, cat_create DPg cat1 = Ok (c', l) /\ length l = 10 /\ map n_name c' = ["shop"; "logs"].
Proof. eexists _, _. split; [vm_compute; reflexivity|]. split; reflexivity. Qed.
Example ex_cat1_drops : exists c' l, cat_drop DPg cat1 = Ok (c', l) /\ length l = 7.
Proof. eexists _, _. split; [vm_compute; reflexivity|reflexivity]. Qed.
Example ex_cat1_runs : exists c' l, cat_create DPg cat1 = Ok (c', l)
  /\ runs eng_pg (l ++ cat_add_constraints DPg c') ex_db (plus_cat DPg cat1 ex_db).
Proof.
  destruct (cat_create DPg cat1) as [[c' l]|] eqn:E; [|exfalso; revert E; vm_compute; discriminate]. exists c', l. split; [reflexivity|].
  exact (C11_create_builds_the_catalog DPg cat1 c' l ex_db E cat1_wf cat_refs1 ex_db_ok ex_unused).
Qed.
