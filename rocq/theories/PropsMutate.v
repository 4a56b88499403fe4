(** C13 - C16: schema mutation.  [exec_all] executes a script, [outcome] (MutSpec.v) describes what a mutation
    may do, [want_...] and [cat_objs] (CatSpec.v) what a catalog stands for. *)
From Verif Require Import PyStr QuoteModel ObjectDict Types Objects SqlAst Ddl Mutate DbSpec CatSpec MutSpec RefSpec KeySpec SortSpec StmtSpec
  EqProofs TabProofs1 CatProofs5 NoopProofs StmtProofs StmtProofs2 ExCat.
From stdpp Require Import gmap strings.
Open Scope string_scope.
Open Scope list_scope.

(** the database that contains the catalog and nothing else *)
Definition exact (d : dialect) (c : catalog) : db := Db (cat_schemas c) (cat_objs d c).

(** ** C13 *)

(** On any database that contains the source (and possibly more), the script succeeds and the result is as
    described by [outcome]: the target is there, what was removed is gone or kept according to the options,
    and everything else is unchanged.
    Partial: [cat_compat] rules out changes for which this is false (see the refuted theorems below),
    and consistency of the intermediate states is not claimed. *)
Theorem C13_mutation_outcome_partial : forall d o s t s' t' l D,
  mutate_catalog d o s t = Ok (s', t', l) -> cat_wf d s -> cat_wf d t -> cat_compat d s t ->
  has_cat d s D -> names_free s t D -> (allow_drop_namespace o = true -> own_schemas d s t D) ->
  exists D', exec_all (engine_of d) l D = Some D' /\ outcome d o s t D D'.
Proof. exact mutation_outcome. Qed.
Print Assumptions C13_mutation_outcome_partial.

(** From the source, exactly the target is reached. *)
Theorem C13_mutation_reaches_target_partial : forall d s t s' t' l,
  mutate_catalog d default_options s t = Ok (s', t', l) -> cat_wf d s -> cat_wf d t -> cat_compat d s t ->
  (forall e, replaced s t e -> ~ In (parked e) (cat_keys s)) ->
  exec_all (engine_of d) l (exact d s) = Some (exact d t).
Proof. intros d s t s' t' l H. apply (mutation_exact d default_options s t s' t' l H). repeat split. Qed.
Print Assumptions C13_mutation_reaches_target_partial.

(** example: every kind of change at once *)
Example C13_example : exists s' t' l, mutate_catalog DPg default_options cat1 cat2 = Ok (s', t', l)
  /\ length l = 15 /\ exec_all eng_pg l (exact DPg cat1) = Some (exact DPg cat2).
Proof.
  destruct (mutate_catalog DPg default_options cat1 cat2) as [[[s' t'] l]|] eqn:E; [|exfalso; revert E; vm_compute; discriminate]. exists s', t', l. split; [reflexivity|]. split.
  - apply (f_equal (fun r => match r with Ok (_, _, l) => length l | Err _ => 0 end)) in E. rewrite <- E. vm_compute. reflexivity.
  - apply (C13_mutation_reaches_target_partial DPg cat1 cat2 s' t' l E); [exact cat1_wf|exact cat2_wf|exact cat_compat12|].
    intros e (a & b & x & Ia & Ib & En & Ie & Ix & Eq & N). cases; discriminate.
Qed.

(** *** What is not true without the side conditions.  All catalogs below are well-formed and closed under references. *)
Definition can (d : dialect) (s t : catalog) : Prop := cat_wf d s /\ cat_wf d t /\ refs_closed s /\ refs_closed t.
Definition aq (n : string) : qid := Qualified (Some "a") n.
Definition bq (n : string) : qid := Qualified (Some "b") n.
Definition idc : column := col "id" int4.
Definition tab (q : qid) (cs : list column) (ks : list constr) : table := Tab q (idc :: cs) ["id"] ks None None.
Ltac refsc := constructor;
  [intros n l1 x l2 m q HI HE HM HQ; cases; try (simpl in HE; destruct l1; discriminate); try (simpl in HE; destruct l1 as [|z l1]; [|destruct l1; discriminate]; injection HE as <- <-; cases; try (simpl in HQ; cases))
  |intros n x k q HI HX HK HQ; cases; try (simpl in HQ; cases)
  |intros n x k cs rt rc HI HX HK; cases; try discriminate].
Ltac canwf := constructor; [simpl; nodup|]; intros n HN; cases; nswf.

Lemma not_runs E l D k D1 : exec_all E (firstn (S k) l) D = Some D1 -> ~ db_ok D1 -> (k < length l)%nat -> ~ exists D', runs E l D D'.
Proof.
  intros X N L (D' & R). revert l D X L R. induction k as [|k IH]; intros [|s l] D X L R; simpl in L; try lia.
  - destruct R as (_ & D2 & X2 & Ok_ & _). simpl in X. rewrite X2 in X. simpl in X. injection X as <-. auto.
  - destruct R as (_ & D2 & X2 & Ok_ & R). change (firstn (S (S k)) (s :: l)) with (s :: firstn (S k) l) in X. cbn [exec_all] in X. rewrite X2 in X. cbn [mbind option_bind] in X.
    apply (IH l D2); auto; lia.
Qed.
Lemma dangling_type D k tb n c q : db_objs D !! k = Some (OTable tb) -> dt_cols tb !! n = Some c -> In q (type_refs (dc_type c)) -> db_objs D !! key_of q = None -> ~ db_ok D.
Proof. intros H1 H2 H3 H4 Ok_. destruct (Ok_ k _ H1) as [[A _] _]. destruct (A n c H2 q H3) as (x & X & _). congruence. Qed.
Lemma dangling_fk D k tb n m cs rt rc : db_objs D !! k = Some (OTable tb) -> dt_cons tb !! n = Some (CForeign m cs rt rc) -> db_objs D !! key_of rt = None -> ~ db_ok D.
Proof. intros H1 H2 H3 Ok_. destruct (Ok_ k _ H1) as [[_ A] _]. destruct (A n _ H2) as [(_ & x & X & _) _]. congruence. Qed.

(** removed namespaces are dropped in creation order: the type of the first is dropped while the table of the second uses it *)
Theorem C13_removed_namespaces_order_refuted :
  ~ (forall s t s' t' l, can DPg s t -> cat_compat DPg s t -> mutate_catalog DPg default_options s t = Ok (s', t', l) ->
     exists D', runs eng_pg l (exact DPg s) D').
Proof.
  intros H. set (na := Ns "a" [Enum (aq "e") ["u"; "v"]] [] []). set (nb := Ns "b" [] [] [tab (bq "t") [col "x" (TUser (aq "e"))] []]).
  destruct (mutate_catalog DPg default_options [na; nb] []) as [[[s' t'] l]|] eqn:E; [|exfalso; revert E; vm_compute; discriminate].
  assert (L : l = [SDropType (aq "e"); SDropTable (bq "t"); SDropSchema true "a"; SDropSchema true "b"]).
  { apply (f_equal (fun r => match r with Ok (_, _, l) => l | Err _ => [] end)) in E. rewrite <- E. vm_compute. reflexivity. }
  subst l. apply (not_runs eng_pg [SDropType (aq "e"); SDropTable (bq "t"); SDropSchema true "a"; SDropSchema true "b"] (exact DPg [na; nb]) 0 (set_obj (key_of (aq "e")) None (exact DPg [na; nb]))).
  - vm_compute. reflexivity.
  - apply (dangling_type _ ("b", "t") (want_tab DPg (tab (bq "t") [col "x" (TUser (aq "e"))] [])) "x" (want_col DPg (col "x" (TUser (aq "e")))) (aq "e")); [vm_compute; reflexivity|vm_compute; reflexivity|simpl; auto|vm_compute; reflexivity].
  - simpl. lia.
  - apply (H [na; nb] [] s' t'); [| |exact E].
    + split; [canwf|]. split; [canwf|]. split; [|refsc]. refsc.
      right. split; [reflexivity|]. exists na. split; [simpl; auto|]. split; [discriminate|]. split; [reflexivity|]. left. exists (Enum (aq "e") ["u"; "v"]). simpl. auto.
    + constructor; [intros a b Ia []|intros e n ty q _ []|intros e (a & b & x & _ & [] & _)].
Qed.
Print Assumptions C13_removed_namespaces_order_refuted.

(** tables removed from a namespace are dropped in source order while other removed tables still refer to them *)
Theorem C13_removed_tables_order_refuted :
  ~ (forall s t s' t' l, can DPg s t -> cat_compat DPg s t -> mutate_catalog DPg default_options s t = Ok (s', t', l) ->
     exists D', runs eng_pg l (exact DPg s) D').
Proof.
  intros H. set (p := tab (aq "p") [] []). set (r := tab (aq "r") [] [CForeign "f" ["id"] (aq "p") ["id"]]).
  set (s := [Ns "a" [] [] [p; r]]). set (t := [Ns "a" [] [] []]).
  destruct (mutate_catalog DPg default_options s t) as [[[s' t'] l]|] eqn:E; [|exfalso; revert E; vm_compute; discriminate].
  assert (L : l = [SDropTable (aq "p"); SDropTable (aq "r")]).
  { apply (f_equal (fun r => match r with Ok (_, _, l) => l | Err _ => [] end)) in E. rewrite <- E. vm_compute. reflexivity. }
  subst l. apply (not_runs eng_pg [SDropTable (aq "p"); SDropTable (aq "r")] (exact DPg s) 0 (set_obj (key_of (aq "p")) None (exact DPg s))).
  - vm_compute. reflexivity.
  - apply (dangling_fk _ ("a", "r") (want_tab DPg r) "f" "f" ["id"] (aq "p") ["id"]); vm_compute; reflexivity.
  - simpl. lia.
  - apply (H s t s' t'); [| |exact E].
    + split; [canwf|]. split; [canwf|]. split; [|refsc]. refsc. split; [reflexivity|]. exists (Ns "a" [] [] [p; r]), p. simpl. auto.
    + constructor.
      * intros a b Ia Ib _. cases. constructor; try (intros; cases; fail). intros x _. simpl. tauto.
      * intros e n ty q (a & b & x & Ia & Ib & _ & Ie & _). cases.
      * intros e (a & b & x & Ia & Ib & _ & Ie & _). cases.
Qed.
Print Assumptions C13_removed_tables_order_refuted.

(** common namespaces are mutated in the order of the source: a new foreign key is added before the new table it refers to *)
Theorem C13_common_namespaces_order_refuted :
  ~ (forall s t s' t' l, can DPg s t -> cat_compat DPg s t -> mutate_catalog DPg default_options s t = Ok (s', t', l) ->
     exists D', runs eng_pg l (exact DPg s) D').
Proof.
  intros H. set (x0 := tab (aq "t") [] []). set (x1 := tab (aq "t") [] [CForeign "f" ["id"] (bq "u") ["id"]]). set (u := tab (bq "u") [] []).
  set (s := [Ns "a" [] [] [x0]; Ns "b" [] [] []]). set (t := [Ns "a" [] [] [x1]; Ns "b" [] [] [u]]).
  destruct (mutate_catalog DPg default_options s t) as [[[s' t'] l]|] eqn:E; [|exfalso; revert E; vm_compute; discriminate].
  set (alter := SAlterTable (aq "t") [AAddConstraint (CForeign "f" ["id"] (bq "u") ["id"])]).
  assert (L : exists l', l = alter :: l').
  { apply (f_equal (fun r => match r with Ok (_, _, l) => l | Err _ => [] end)) in E. rewrite <- E. eexists. vm_compute. reflexivity. }
  destruct L as [l' ->]. destruct (exec eng_pg alter (exact DPg s)) as [D1|] eqn:X; [|revert X; vm_compute; discriminate].
  apply (not_runs eng_pg (alter :: l') (exact DPg s) 0 D1).
  - change (firstn 1 (alter :: l')) with [alter]. cbn [exec_all]. rewrite X. reflexivity.
  - assert (Q : db_objs D1 !! ("a", "t") = Some (OTable (want_tab DPg x1)) /\ db_objs D1 !! ("b", "u") = None).
    { revert X. vm_compute. intros [= <-]. split; reflexivity. }
    destruct Q as [Q1 Q2]. apply (dangling_fk _ ("a", "t") (want_tab DPg x1) "f" "f" ["id"] (bq "u") ["id"]); [exact Q1|vm_compute; reflexivity|exact Q2].
  - simpl. lia.
  - apply (H s t s' t'); [| |exact E].
    + split; [canwf|]. split; [canwf|]. split; refsc. split; [reflexivity|]. exists (Ns "b" [] [] [u]), u. simpl. auto.
    + constructor.
      * intros a b Ia Ib En. cases; try discriminate; constructor; try (intros; cases; fail).
        -- intros y z Iy Iz _. cases. constructor; [reflexivity| | | |intros [G | G]; discriminate G].
           ++ intros v w Iv Iw _. cases; split; [intros Z; discriminate Z|intros _ _; reflexivity].
           ++ intros v w Iv Iw _ (M1 & _). cases. congruence.
           ++ intros _ v k Iv Nv. cases. simpl in Nv. tauto.
        -- intros y Iy. simpl. tauto.
      * intros e n ty q (a & b & x & Ia & Ib & _ & Ie & _). cases.
      * intros e (a & b & x & Ia & Ib & _ & Ie & _). cases.
Qed.
Print Assumptions C13_common_namespaces_order_refuted.

(** a new namespace is created with all its foreign keys before a mutated namespace gets the new table they refer to *)
Theorem C13_new_namespace_first_refuted :
  ~ (forall s t s' t' l, can DPg s t -> cat_compat DPg s t -> mutate_catalog DPg default_options s t = Ok (s', t', l) ->
     exists D', runs eng_pg l (exact DPg s) D').
Proof.
  intros H. set (x1 := tab (aq "t") [] [CForeign "f" ["id"] (bq "u") ["id"]]). set (u := tab (bq "u") [] []).
  set (s := [Ns "b" [] [] []]). set (t := [Ns "a" [] [] [x1]; Ns "b" [] [] [u]]).
  destruct (mutate_catalog DPg default_options s t) as [[[s' t'] l]|] eqn:E; [|exfalso; revert E; vm_compute; discriminate].
  assert (L : exists s1 s2 l', l = s1 :: s2 :: SAlterTable (aq "t") [AAddConstraint (CForeign "f" ["id"] (bq "u") ["id"])] :: l' /\
     exists D1, exec_all eng_pg [s1; s2; SAlterTable (aq "t") [AAddConstraint (CForeign "f" ["id"] (bq "u") ["id"])]] (exact DPg s) = Some D1
      /\ db_objs D1 !! ("a", "t") = Some (OTable (want_tab DPg x1)) /\ db_objs D1 !! ("b", "u") = None).
  { apply (f_equal (fun r => match r with Ok (_, _, l) => l | Err _ => [] end)) in E. rewrite <- E. eexists _, _, _. split; [vm_compute; reflexivity|].
    eexists. split; [vm_compute; reflexivity|]. split; vm_compute; reflexivity. }
  destruct L as (s1 & s2 & l' & -> & D1 & X & Q1 & Q2).
  apply (not_runs eng_pg (s1 :: s2 :: SAlterTable (aq "t") [AAddConstraint (CForeign "f" ["id"] (bq "u") ["id"])] :: l') (exact DPg s) 2 D1 X).
  - apply (dangling_fk _ ("a", "t") (want_tab DPg x1) "f" "f" ["id"] (bq "u") ["id"]); [exact Q1|vm_compute; reflexivity|exact Q2].
  - simpl. lia.
  - apply (H s t s' t'); [| |exact E].
    + split; [canwf|]. split; [canwf|]. split; refsc. split; [reflexivity|]. exists (Ns "b" [] [] [u]), u. simpl. auto.
    + constructor.
      * intros a b Ia Ib En. cases; try discriminate; constructor; intros; cases.
      * intros e n ty q (a & b & x & Ia & Ib & _ & Ie & _). cases.
      * intros e (a & b & x & Ia & Ib & _ & Ie & _). cases.
Qed.
Print Assumptions C13_new_namespace_first_refuted.

Ltac claim H s t d :=
  destruct (mutate_catalog d default_options s t) as [[[s' t'] l]|] eqn:E; [|exfalso; revert E; vm_compute; discriminate];
  assert (X := H s t s' t' l); cbv beta in X.
(** a column is dropped in the same statement as its constraint, column first: the engine has dropped the constraint already *)
Theorem C13_drop_column_with_constraint_refuted :
  ~ (forall s t s' t' l, can DPg s t -> mutate_catalog DPg default_options s t = Ok (s', t', l) ->
     exists D', exec_all eng_pg l (exact DPg s) = Some D').
Proof.
  intros H. set (s := [Ns "a" [] [] [tab (aq "t") [col "x" int4] [CUnique "u" ["x"]]]]). set (t := [Ns "a" [] [] [tab (aq "t") [] []]]).
  claim H s t DPg. destruct X as [D' X]; [|exact E|].
  - split; [canwf|]. split; [canwf|]. split; refsc.
  - revert X. apply (f_equal (fun r => match r with Ok (_, _, l) => l | Err _ => [] end)) in E. rewrite <- E. vm_compute. discriminate.
Qed.
Print Assumptions C13_drop_column_with_constraint_refuted.

(** a change of the primary key is ignored: the script is empty *)
Theorem C13_primary_key_change_refuted :
  ~ (forall s t s' t' l, can DPg s t -> mutate_catalog DPg default_options s t = Ok (s', t', l) ->
     exec_all eng_pg l (exact DPg s) = Some (exact DPg t)).
Proof.
  intros H. set (s := [Ns "a" [] [] [Tab (aq "t") [idc; col "x" int4] ["id"] [] None None]]). set (t := [Ns "a" [] [] [Tab (aq "t") [idc; col "x" int4] ["x"] [] None None]]).
  claim H s t DPg. assert (Z : exec_all eng_pg l (exact DPg s) = Some (exact DPg t)).
  { apply X; [|exact E]. split; [canwf|]. split; [canwf|]. split; refsc. }
  revert Z. apply (f_equal (fun r => match r with Ok (_, _, l) => l | Err _ => [] end)) in E. rewrite <- E. vm_compute. discriminate.
Qed.
Print Assumptions C13_primary_key_change_refuted.

(** an identity column that becomes nullable: NOT NULL is dropped before the identity property *)
Theorem C13_identity_to_nullable_refuted :
  ~ (forall s t s' t' l, can DPg s t -> mutate_catalog DPg default_options s t = Ok (s', t', l) ->
     exists D', exec_all eng_pg l (exact DPg s) = Some D').
Proof.
  intros H. set (s := [Ns "a" [] [] [tab (aq "t") [Col "x" int4 false None true None] []]]). set (t := [Ns "a" [] [] [tab (aq "t") [ncol "x" int4] []]]).
  claim H s t DPg. destruct X as [D' X]; [|exact E|].
  - split; [canwf|]. split; [canwf|]. split; refsc.
  - revert X. apply (f_equal (fun r => match r with Ok (_, _, l) => l | Err _ => [] end)) in E. rewrite <- E. vm_compute. discriminate.
Qed.
Print Assumptions C13_identity_to_nullable_refuted.

(** a composite type that becomes a table of the same name: the table is created before the type is dropped *)
Theorem C13_type_becomes_table_refuted :
  ~ (forall s t s' t' l, can DPg s t -> mutate_catalog DPg default_options s t = Ok (s', t', l) ->
     exists D', exec_all eng_pg l (exact DPg s) = Some D').
Proof.
  intros H. set (s := [Ns "a" [] [Struct (aq "t") [Mem "x" int4 None] None] []]). set (t := [Ns "a" [] [] [tab (aq "t") [] []]]).
  claim H s t DPg. destruct X as [D' X]; [|exact E|].
  - split; [canwf|]. split; [canwf|]. split; refsc.
  - revert X. apply (f_equal (fun r => match r with Ok (_, _, l) => l | Err _ => [] end)) in E. rewrite <- E. vm_compute. discriminate.
Qed.
Print Assumptions C13_type_becomes_table_refuted.

(** Snowflake (and Delta): the description of a column does not follow.  This and the two next changes are what [tc_general] in [tab_compat] rules out. *)
Theorem C13_snowflake_description_refuted :
  ~ (forall s t s' t' l, can DSnow s t -> mutate_catalog DSnow default_options s t = Ok (s', t', l) ->
     exec_all (engine_of DSnow) l (exact DSnow s) = Some (exact DSnow t)).
Proof.
  intros H. set (s := [Ns "a" [] [] [tab (aq "t") [col "x" int4] []]]). set (t := [Ns "a" [] [] [tab (aq "t") [Col "x" int4 false None false (Some "new")] []]]).
  claim H s t DSnow. assert (Z : exec_all (engine_of DSnow) l (exact DSnow s) = Some (exact DSnow t)).
  { apply X; [|exact E]. split; [canwf|]. split; [canwf|]. split; refsc. }
  revert Z. apply (f_equal (fun r => match r with Ok (_, _, l) => l | Err _ => [] end)) in E. rewrite <- E. vm_compute. discriminate.
Qed.
Print Assumptions C13_snowflake_description_refuted.

(** the same on Delta *)
Theorem C13_delta_description_refuted :
  ~ (forall s t s' t' l, can DDelta s t -> mutate_catalog DDelta default_options s t = Ok (s', t', l) ->
     exec_all (engine_of DDelta) l (exact DDelta s) = Some (exact DDelta t)).
Proof.
  intros H. set (s := [Ns "a" [] [] [tab (aq "t") [col "x" int4] []]]). set (t := [Ns "a" [] [] [tab (aq "t") [Col "x" int4 false None false (Some "new")] []]]).
  claim H s t DDelta. assert (Z : exec_all (engine_of DDelta) l (exact DDelta s) = Some (exact DDelta t)).
  { apply X; [|exact E]. split; [canwf|]. split; [canwf|]. split; refsc. }
  revert Z. apply (f_equal (fun r => match r with Ok (_, _, l) => l | Err _ => [] end)) in E. rewrite <- E. vm_compute. discriminate.
Qed.
Print Assumptions C13_delta_description_refuted.

(** Delta: tables are created without defaults, but a changed default is set *)
Theorem C13_delta_default_refuted :
  ~ (forall s t s' t' l, can DDelta s t -> mutate_catalog DDelta default_options s t = Ok (s', t', l) ->
     exec_all (engine_of DDelta) l (exact DDelta s) = Some (exact DDelta t)).
Proof.
  intros H. set (s := [Ns "a" [] [] [tab (aq "t") [Col "x" int4 false (Some "1") false None] []]]). set (t := [Ns "a" [] [] [tab (aq "t") [Col "x" int4 false (Some "2") false None] []]]).
  claim H s t DDelta. assert (Z : exec_all (engine_of DDelta) l (exact DDelta s) = Some (exact DDelta t)).
  { apply X; [|exact E]. split; [canwf|]. split; [canwf|]. split; refsc. }
  revert Z. apply (f_equal (fun r => match r with Ok (_, _, l) => l | Err _ => [] end)) in E. rewrite <- E. vm_compute. discriminate.
Qed.
Print Assumptions C13_delta_default_refuted.

(** Snowflake: a table is created with the default TIMESTAMP '...', but the changed default is set as '...' *)
Theorem C13_snowflake_default_refuted :
  ~ (forall s t s' t' l, can DSnow s t -> mutate_catalog DSnow default_options s t = Ok (s', t', l) ->
     exec_all (engine_of DSnow) l (exact DSnow s) = Some (exact DSnow t)).
Proof.
  intros H. set (s := [Ns "a" [] [] [tab (aq "t") [Col "x" (TTimestamp None false) false None false None] []]]). set (t := [Ns "a" [] [] [tab (aq "t") [Col "x" (TTimestamp None false) false (Some "'1984-01-01 23:59:59'") false None] []]]).
  claim H s t DSnow. assert (Z : exec_all (engine_of DSnow) l (exact DSnow s) = Some (exact DSnow t)).
  { apply X; [|exact E]. split; [canwf|]. split; [canwf|]. split; refsc. }
  revert Z. apply (f_equal (fun r => match r with Ok (_, _, l) => l | Err _ => [] end)) in E. rewrite <- E. vm_compute. discriminate.
Qed.
Print Assumptions C13_snowflake_default_refuted.

(** example: on Snowflake and Delta, a column becomes nullable, one is added, one dropped, a table is dropped and another one created *)
Definition gen1 : catalog := [Ns "a" [] [] [tab (aq "t") [col "x" int4; Col "z" int4 false None false (Some "kept")] []; tab (aq "gone") [] []]].
Definition gen2 : catalog := [Ns "a" [] [] [tab (aq "t") [ncol "x" int8; ncol "y" TReal] []; Tab (aq "new") [idc] ["id"] [] (Some "described") None]].
Example C13_example_general d : general d -> exists s' t' l, mutate_catalog d default_options gen1 gen2 = Ok (s', t', l)
  /\ exec_all (engine_of d) l (exact d gen1) = Some (exact d gen2) /\ length l = 4.
Proof.
  intros G. destruct (mutate_catalog d default_options gen1 gen2) as [[[s' t'] l]|] eqn:E; [|exfalso; revert E; destruct G as [-> | ->]; vm_compute; discriminate]. exists s', t', l. split; [reflexivity|]. split.
  - apply (C13_mutation_reaches_target_partial d gen1 gen2 s' t' l E).
    + destruct G as [-> | ->]; canwf.
    + destruct G as [-> | ->]; canwf.
    + constructor.
      * intros a b Ia Ib En. cases. constructor; try (intros; cases; fail).
        -- intros y z Iy Iz K. cases; try discriminate. constructor; [reflexivity| | | |].
           ++ intros v w Iv Iw N. cases; try discriminate; (split; [intros Z; discriminate Z|intros _ _; destruct G as [-> | ->]; reflexivity]).
           ++ intros v w Iv Iw N (M1 & M2 & M3). destruct G as [-> | ->]; cases; try discriminate; cbn in *; intuition congruence.
           ++ intros _ v k Iv Nv. cases; simpl in Nv; tauto.
           ++ intros _. split; [reflexivity|]. intros v w Iv Iw N. cases; try discriminate; (split; [reflexivity|now left]).
        -- intros y Iy. cases; simpl; tauto.
      * intros e n ty q (a & b & x & Ia & Ib & _ & Ie & _). cases.
      * intros e (a & b & x & Ia & Ib & _ & Ie & _). cases.
    + intros e (a & b & x & Ia & Ib & _ & Ie & _). cases.
  - apply (f_equal (fun r => match r with Ok (_, _, l) => length l | Err _ => 0 end)) in E. rewrite <- E. destruct G as [-> | ->]; vm_compute; reflexivity.
Qed.

(** ** C14 *)
(** Equal catalogs (in any order of the members): nothing is generated. *)
Theorem C14_equal_catalogs_no_statement : forall d o s t s' t' l,
  cat_keyed s -> cat_keyed t -> cat_eqb s t = true -> mutate_catalog d o s t = Ok (s', t', l) -> l = [].
Proof. exact mutation_noop. Qed.
Print Assumptions C14_equal_catalogs_no_statement.
(** and the call succeeds unless the references between namespaces are circular or, for MySQL, a comment is too long *)
Theorem C14_equal_catalogs_succeed : forall d o s t,
  cat_keyed s -> cat_keyed t -> ~ circular s -> ~ circular t ->
  (d = DMySQL -> forall n x c, In n s -> In x (n_tables n) -> In c (t_columns x) -> exists m, mysql_comment (c_desc c) = Ok m) ->
  cat_eqb s t = true -> exists s' t', mutate_catalog d o s t = Ok (s', t', []).
Proof. intros d o s t K K' C C' HM. apply mutation_noop_ok; auto. intros M n x I Ix c Ic. eauto. Qed.
Print Assumptions C14_equal_catalogs_succeed.
(** Conversely, where nothing is generated the two catalogs stand for the same database. *)
Theorem C14_no_statement_means_equal : forall d o s t s' t',
  mutate_catalog d o s t = Ok (s', t', []) -> drops_all o -> cat_wf d s -> cat_wf d t -> cat_compat d s t ->
  (forall e, replaced s t e -> ~ In (parked e) (cat_keys s)) ->
  cat_schemas s = cat_schemas t /\ cat_objs d s = cat_objs d t.
Proof.
  intros d o s t s' t' H Ho Ws Wt C HP. assert (Z := mutation_exact d o s t s' t' [] H Ho Ws Wt C HP). simpl in Z. injection Z as Z1 Z2. auto.
Qed.
Print Assumptions C14_no_statement_means_equal.
(** a reordering of the members of cat1 *)
Definition cat1' : catalog := [Ns "shop" [color1] [Struct (shop "point") [Mem "y" TDouble None; Mem "x" TDouble None] (Some "a place")] [person1; order1]; Ns "logs" [] [] [visit]].
Example C14_example : cat_keyed cat1 /\ cat_keyed cat1' /\ cat_eqb cat1 cat1' = true /\ cat1 <> cat1' /\ exists s' t', mutate_catalog DPg default_options cat1 cat1' = Ok (s', t', []).
Proof.
  split; [exact cat1_keyed|]. split; [|split; [reflexivity|split; [discriminate|eexists _, _; vm_compute; reflexivity]]].
  constructor; [keys|]. intros n Hn. cases; nskeyed.
Qed.
(** A change of the primary key only goes unnoticed. *)
Theorem C14_primary_key_refuted :
  ~ (forall s t s' t', can DPg s t -> mutate_catalog DPg default_options s t = Ok (s', t', []) -> cat_objs DPg s = cat_objs DPg t).
Proof.
  intros H. set (s := [Ns "a" [] [] [Tab (aq "t") [idc; col "x" int4] ["id"] [] None None]]). set (t := [Ns "a" [] [] [Tab (aq "t") [idc; col "x" int4] ["x"] [] None None]]).
  assert (Z := H s t s t). assert (Z' : cat_objs DPg s = cat_objs DPg t).
  { apply Z; [|vm_compute; reflexivity]. split; [canwf|]. split; [canwf|]. split; refsc. }
  revert Z'. vm_compute. discriminate.
Qed.
Print Assumptions C14_primary_key_refuted.

(** ** C15 *)
Section C15.
  Context (d : dialect) (o : options) (s t s' t' : catalog) (l : list stmt).
  Context (Ns_ : List.NoDup (map n_name s)) (Nt_ : List.NoDup (map n_name t)) (H : mutate_catalog d o s t = Ok (s', t', l)).
  (** A table is dropped only if tables may be dropped and it was removed from a namespace that stays, or if
      namespaces may be dropped and its namespace was removed. *)
  Theorem C15_drop_table : forall q, In (SDropTable q) l ->
    (allow_drop_table o = true /\ exists a b x, common_ns s t a b /\ In x (n_tables a) /\ ~ In (t_key x) (map t_key (n_tables b)) /\ t_name x = q)
    \/ (allow_drop_namespace o = true /\ exists n x, removed_ns s t n /\ In x (n_tables n) /\ t_name x = q).
  Proof. intros q I. exact (drop_table_source d o s t q (mutate_catalog_in d o s t s' t' l _ Ns_ Nt_ H I)). Qed.
  (** likewise types; the last alternative of the second case is the type of an enumeration that was replaced by a table *)
  Theorem C15_drop_type : forall q, In (SDropType q) l ->
    (allow_drop_struct o = true /\ exists a b x, common_ns s t a b /\ In x (n_structs a) /\ ~ In (s_key x) (map s_key (n_structs b)) /\ s_name x = q)
    \/ (allow_drop_enum o = true /\ exists a b e, common_ns s t a b /\ In e (n_enums a) /\ ~ In (e_key e) (map e_key (n_enums b))
         /\ (e_name e = q \/ (rename_qid (e_name e) (deleted (local_id (e_name e))) = q /\ exists y, In y (n_tables b) /\ e_name e = t_name y)))
    \/ (allow_drop_namespace o = true /\ exists n, removed_ns s t n /\ In q (map e_name (n_enums n) ++ map s_name (n_structs n))).
  Proof. intros q I. exact (drop_type_source d o s t q (mutate_catalog_in d o s t s' t' l _ Ns_ Nt_ H I)). Qed.
  Theorem C15_drop_schema : forall c n, In (SDropSchema c n) l -> allow_drop_namespace o = true /\ exists m, removed_ns s t m /\ n_name m = n.
  Proof. intros c n I. exact (drop_schema_source d o s t c n (mutate_catalog_in d o s t s' t' l _ Ns_ Nt_ H I)). Qed.
End C15.
Print Assumptions C15_drop_table.
Print Assumptions C15_drop_type.
Print Assumptions C15_drop_schema.
(** With all options off nothing is dropped. *)
Theorem C15_nothing_dropped : forall d s t s' t' l, List.NoDup (map n_name s) -> List.NoDup (map n_name t) ->
  mutate_catalog d (Opts false false false false) s t = Ok (s', t', l) ->
  forall q c n, ~ In (SDropTable q) l /\ ~ In (SDropType q) l /\ ~ In (SDropSchema c n) l.
Proof.
  intros d s t s' t' l N1 N2 H q c n. split; [|split]; intros I.
  - destruct (C15_drop_table d _ s t s' t' l N1 N2 H q I) as [[Z _]|[Z _]]; discriminate Z.
  - destruct (C15_drop_type d _ s t s' t' l N1 N2 H q I) as [[Z _]|[[Z _]|[Z _]]]; discriminate Z.
  - destruct (C15_drop_schema d _ s t s' t' l N1 N2 H c n I) as [Z _]; discriminate Z.
Qed.
Print Assumptions C15_nothing_dropped.
(** Objects that would have been dropped still exist, unaltered, after the script: [kept] keeps an object as it is unless
    it mentions a replaced enumeration. *)
Theorem C15_protected_objects_survive : forall d o s t s' t' l D,
  mutate_catalog d o s t = Ok (s', t', l) -> cat_wf d s -> cat_wf d t -> cat_compat d s t ->
  has_cat d s D -> names_free s t D -> (allow_drop_namespace o = true -> own_schemas d s t D) ->
  exists D', exec_all (engine_of d) l D = Some D'
  /\ (allow_drop_table o = false -> forall a b x, common_ns s t a b -> In x (n_tables a) -> not_in_ns b (t_key x) ->
        kept s t (db_objs D !! key_of (t_name x)) (db_objs D' !! key_of (t_name x)))
  /\ (allow_drop_struct o = false -> forall a b x, common_ns s t a b -> In x (n_structs a) -> not_in_ns b (s_key x) ->
        kept s t (db_objs D !! key_of (s_name x)) (db_objs D' !! key_of (s_name x)))
  /\ (allow_drop_enum o = false -> forall a b e, common_ns s t a b -> In e (n_enums a) -> not_in_ns b (e_key e) ->
        kept s t (db_objs D !! key_of (e_name e)) (db_objs D' !! key_of (e_name e)))
  /\ (allow_drop_namespace o = false -> forall x, x ∈ db_schemas D -> x ∈ db_schemas D').
Proof.
  intros d o s t s' t' l D H Ws Wt C HD NF OS. destruct (mutation_outcome d o s t s' t' l D H Ws Wt C HD NF OS) as (D' & X & O). exists D'. split; [exact X|].
  split; [|split; [|split]].
  - intros E a b x Cn I N. assert (Z := oc_table _ _ _ _ _ _ O a b x Cn I N). now rewrite E in Z.
  - intros E a b x Cn I N. assert (Z := oc_struct _ _ _ _ _ _ O a b x Cn I N). now rewrite E in Z.
  - intros E a b x Cn I N. assert (Z := oc_enum _ _ _ _ _ _ O a b x Cn I N). now rewrite E in Z.
  - intros E x Ix. apply (oc_schemas _ _ _ _ _ _ O). right. split; [exact Ix|]. rewrite E. intros [Z _]. discriminate.
Qed.
Print Assumptions C15_protected_objects_survive.
(** example: the shop without its second table and with everything protected *)
Definition no_drops : options := Opts false false false false.
Example C15_example : exists s' t' l, mutate_catalog DPg no_drops cat1 cat2 = Ok (s', t', l) /\ length l = 12
  /\ common_ns cat1 cat2 (Ns "shop" [color1] [point1] [order1; person1]) (Ns "shop" [color2] [point2] [person2; invoice2])
  /\ In order1 [order1; person1] /\ not_in_ns (Ns "shop" [color2] [point2] [person2; invoice2]) (t_key order1).
Proof. eexists _, _, _. split; [vm_compute; reflexivity|]. split; [reflexivity|]. split; [repeat split; simpl; auto|]. split; [now left|]. unfold not_in_ns. simpl. intuition discriminate. Qed.

(** Not protected: constraints of the tables of a removed namespace are dropped whatever the options say. *)
Theorem C15_constraints_of_removed_namespace_refuted :
  ~ (forall s t s' t' l, can DPg s t -> mutate_catalog DPg no_drops s t = Ok (s', t', l) -> forall q acts n, In (SAlterTable q acts) l -> ~ In (ADropConstraint n) acts).
Proof.
  intros H. set (s := [Ns "a" [] [] [tab (aq "t") [] [CUnique "u" ["id"]]]]).
  apply (H s [] s [] [SAlterTable (aq "t") [ADropConstraint "u"]]) with (q := aq "t") (acts := [ADropConstraint "u"]) (n := "u"); [|vm_compute; reflexivity|now left|now left].
  split; [canwf|]. split; [canwf|]. split; refsc.
Qed.
Print Assumptions C15_constraints_of_removed_namespace_refuted.
(** Not protected: an enumeration replaced by a table is renamed although enumerations may not be dropped. *)
Theorem C15_replaced_enum_renamed_refuted :
  ~ (forall s t s' t' l, can DPg s t -> mutate_catalog DPg no_drops s t = Ok (s', t', l) -> forall q n, ~ In (SRenameType q n) l).
Proof.
  intros H. set (s := [Ns "a" [Enum (aq "e") ["u"; "v"]] [] []]). set (lt := Tab (aq "e") [idc; col "value" (TVarChar (Some 64%Z))] ["id"] [CUnique "uq_e" ["value"]] None None). set (t := [Ns "a" [] [] [lt]]).
  destruct (mutate_catalog DPg no_drops s t) as [[[s' t'] l]|] eqn:E; [|exfalso; revert E; vm_compute; discriminate].
  apply (H s t s' t' l) with (q := aq "e") (n := "pysqlsync$e"); [|exact E|].
  - split; [canwf|]. split; [canwf|]. split; refsc.
  - apply (f_equal (fun r => match r with Ok (_, _, l) => l | Err _ => [] end)) in E. rewrite <- E. vm_compute. now left.
Qed.
Print Assumptions C15_replaced_enum_renamed_refuted.

(** ** C16 *)
(** No statement names an object that is in neither catalog, except the parked type of a replaced enumeration and tables that
    foreign keys of the target refer to. *)
Theorem C16_only_named_objects : forall d o s t s' t' l, cat_wf d s -> cat_wf d t -> cat_compat d s t ->
  mutate_catalog d o s t = Ok (s', t', l) -> forall st q, In st l -> stmt_target st = Some q ->
  In (key_of q) (cat_keys s) \/ In (key_of q) (cat_keys t) \/ (exists e, replaced s t e /\ key_of q = parked e) \/ fk_target t q.
Proof.
  intros d o s t s' t' l Ws Wt C H st q I T. eapply target_named; [|exact T|].
  - eapply mutate_catalog_in; eauto; apply NoDup_ListNoDup; [exact (cw_names _ _ Ws)|exact (cw_names _ _ Wt)].
  - intros a b e x (C1 & C2 & C3) Ie Ix E. eapply (nc_ids _ _ _ (cc_ns _ _ _ C a b C1 C2 C3)); eauto. unfold e_key, t_key. congruence.
Qed.
Print Assumptions C16_only_named_objects.
(** with a target closed under references, the foreign keys lead to tables of the target *)
Theorem C16_only_catalog_objects : forall d o s t s' t' l, cat_wf d s -> cat_wf d t -> cat_compat d s t -> refs_closed t ->
  mutate_catalog d o s t = Ok (s', t', l) -> forall st q, In st l -> stmt_target st = Some q ->
  In (key_of q) (cat_keys s) \/ In (key_of q) (cat_keys t) \/ (exists e, replaced s t e /\ key_of q = parked e).
Proof.
  intros d o s t s' t' l Ws Wt C R H st q I T. destruct (C16_only_named_objects d o s t s' t' l Ws Wt C H st q I T) as [Z|[Z|[Z|Z]]]; auto.
  destruct Z as (n & x & k & cs & rc & In_ & Ix & Ik). destruct (rc_foreign _ R n x k cs q rc In_ Ix Ik) as (_ & m & y & Im & Iy & E & _). right. left. rewrite <- E.
  eapply in_cat_keys; [exact Im|]. now apply names_table.
Qed.
Print Assumptions C16_only_catalog_objects.
(** A table whose definition is the same in both catalogs is not altered, dropped or commented on; at most rows are added. *)
Theorem C16_unchanged_table : forall d o s t s' t' l, cat_wf d s -> cat_wf d t -> cat_compat d s t ->
  mutate_catalog d o s t = Ok (s', t', l) -> forall a b x y, common_ns s t a b -> In x (n_tables a) -> In y (n_tables b) -> table_eqb x y = true ->
  forall st, In st l -> stmt_target st = Some (t_name x) -> adds_rows st.
Proof.
  intros d o s t s' t' l Ws Wt C H a b x y Cn Ix Iy E st I T.
  assert (En : t_name x = t_name y). { unfold table_eqb in E. rewrite !andb_true_iff in E. apply qid_eqb_eq. apply E. }
  eapply (unchanged_table d o s t a b x y Ws Wt Cn Ix Iy En); [|exact E| |exact T].
  - intros e R Z. apply (cc_parked _ _ _ C e R). destruct R as (a' & b' & x' & R1 & R2 & R3 & R4 & R5 & R6 & R7). rewrite <- parked_key.
    + rewrite Z, En. eapply in_cat_keys; [apply Cn|]. now apply names_table.
    + eapply (nc_ids _ _ _ (cc_ns _ _ _ C a' b' R1 R2 R3)); eauto. unfold e_key, t_key. congruence.
  - eapply mutate_catalog_in; eauto; apply NoDup_ListNoDup; [exact (cw_names _ _ Ws)|exact (cw_names _ _ Wt)].
Qed.
Print Assumptions C16_unchanged_table.
(** A column with the same name and type in source and target is not dropped, renamed or re-created (unless another column is named
    like its soft-deleted form). *)
Theorem C16_retained_column : forall d o s t s' t' l, cat_wf d s -> cat_wf d t -> cat_compat d s t ->
  mutate_catalog d o s t = Ok (s', t', l) -> forall a b x y u v, common_ns s t a b -> In x (n_tables a) -> In y (n_tables b) -> t_name x = t_name y ->
  In u (t_columns x) -> In v (t_columns y) -> c_name u = c_name v -> c_type u = c_type v -> ~ In (c_name u) (map (fun c => deleted (c_name c)) (t_columns x)) ->
  forall acts act, In (SAlterTable (t_name x) acts) l -> In act acts -> ~ disturbs (c_name u) act.
Proof.
  intros d o s t s' t' l Ws Wt C H a b x y u v Cn Ix Iy En Iu Iv Nu Tu Nd acts act I Ia.
  eapply (undisturbed_column d o s t a b x y Ws Wt Cn Ix Iy En); eauto.
  - intros e R Z. apply (cc_parked _ _ _ C e R). destruct R as (a' & b' & x' & R1 & R2 & R3 & R4 & R5 & R6 & R7). rewrite <- parked_key.
    + rewrite Z, En. eapply in_cat_keys; [apply Cn|]. now apply names_table.
    + eapply (nc_ids _ _ _ (cc_ns _ _ _ C a' b' R1 R2 R3)); eauto. unfold e_key, t_key. congruence.
  - eapply mutate_catalog_in; eauto; apply NoDup_ListNoDup; [exact (cw_names _ _ Ws)|exact (cw_names _ _ Wt)].
Qed.
Print Assumptions C16_retained_column.
Example C16_example : exists s' t' l acts, mutate_catalog DPg default_options cat1 cat2 = Ok (s', t', l) /\ In (SAlterTable (t_name person1) acts) l /\ In (ADropColumn "home") acts.
Proof. eexists _, _, _, _. split; [vm_compute; reflexivity|]. split; [|]. { simpl. do 8 right. left. reflexivity. } simpl. auto 20. Qed.
