(** Concrete databases of MySQL and SQL Server with their information schemas, used by PropsInfo.v *)
From Verif Require Import PyStr QuoteModel QuoteSpec ObjectDict Types Objects SqlAst Ddl Mutate DbSpec CatSpec MutSpec RefSpec KeySpec ExCat IsExplore IsCatSpec IsSeenSpec PropsDiscover Flat FlatSpec Session SessionSpec.
From Verif Require DiscoverSpec Factory CatProofs4.
From Verif Require Import PgProofs1 PgProofs3 HushSpec.
From Coq Require Import List String Sorted Permutation Lia.
From stdpp Require Import gmap strings.
Open Scope string_scope.
Open Scope list_scope.

(** the rows in the order of the views *)
Definition stored (A : Type) (q : string) (l : list A) : list A := l.
Lemma stored_any : any_order stored. Proof. intros A q l. reflexivity. Qed.
(** ... in which the keys of one column are in order *)
Definition empty_db : db := Db ∅ ∅.
Lemma empty_apart c : apart c empty_db.
Proof.
  constructor.
  - intros k x H. cbn in H. rewrite lookup_empty in H. discriminate.
  - intros n Hn. right. cbn. set_solver.
  - intros k x j H. cbn in H. rewrite lookup_empty in H. discriminate.
Qed.
Definition nothing : catalog := [Ns "" [] [] []].
Lemma nothing_empty d : empty_db = plus_cat d nothing empty_db.
Proof. unfold plus_cat, nothing, empty_db. cbn [db_schemas db_objs]. f_equal; [set_solver|symmetry; apply (right_id ∅ (∪))]. Qed.
Lemma nothing_wf d : cat_wf d nothing.
Proof. constructor; [simpl; nodup|]. intros n Hn. cases. constructor; [intros q []|constructor|intros e []|intros x []|intros x []]. Qed.

(** ** MySQL *)
Definition shp (n : string) : qid := Prefixed (Some "shop") n.
Definition y_person := Tab (shp "person")
  [Col "id" int4 false None true None; Col "name" (TSub MyVarChar (TVarChar (Some 64%Z))) false None false (Some "full name");
   ncol "created" (TSub MyDateTime (TTimestamp None false)); Col "visits" int4 false (Some "0") false None]
  ["id"] [CUnique "uq_name" ["name"]] (Some "people") None.
Definition y_order := Tab (shp "order") [col "id" int4; col "buyer" int4] ["id"] [CForeign "fk_buyer" ["buyer"] (shp "person") ["id"]] None None.
Definition y_tabs := [y_person; y_order].
Definition y_cat : catalog := [Ns "" [] [] y_tabs].
(** a text is shown without its quotes *)
Definition my_deparse (ty : sqltype) (e : string) : string := match mysql_literal e with Some (s, ""%string) => s | _ => e end.
Definition my_int (table name : string) (pos : Z) (dflt : option string) (extra : string) : icol :=
  ICol "app" table name pos "int" "int" "NO" dflt None (Some 10%Z) (Some 0%Z) None extra "".
Definition y_info : infoschema := {|
  is_tables := [ITab "app" "shop__order" ""; ITab "app" "shop__person" "people"; ITab "mysql" "user" "Users and global privileges"];
  is_columns :=
    [my_int "shop__order" "id" 1 None ""; my_int "shop__order" "buyer" 2 None "";
     ICol "app" "shop__person" "created" 3 "datetime" "datetime" "YES" None None None None (Some 0%Z) "" "";
     my_int "shop__person" "id" 1 None "auto_increment";
     ICol "app" "shop__person" "name" 2 "varchar" "varchar(64)" "NO" None (Some 64%Z) None None None "" "full name";
     my_int "shop__person" "visits" 4 (Some "0") "";
     ICol "mysql" "user" "Host" 1 "char" "char(255)" "NO" (Some "") (Some 255%Z) None None None "" ""];
  is_constraints :=
    [ICon "app" "PRIMARY" "app" "shop__order" "PRIMARY KEY"; ICon "app" "fk_buyer" "app" "shop__order" "FOREIGN KEY";
     ICon "app" "PRIMARY" "app" "shop__person" "PRIMARY KEY"; ICon "app" "uq_name" "app" "shop__person" "UNIQUE"];
  is_usage :=
    [IUse "app" "PRIMARY" "app" "shop__order" "id" 1 None; IUse "app" "fk_buyer" "app" "shop__order" "buyer" 1 (Some ("app", "shop__person", "id"));
     IUse "app" "PRIMARY" "app" "shop__person" "id" 1 None; IUse "app" "uq_name" "app" "shop__person" "name" 1 None];
  is_refs := [IRef "app" "fk_buyer" "shop__order" "app" "PRIMARY"];
  sys_tables := []; sys_columns := [] |}.
Definition y_db : db := Db ∅ (cat_objs DMySQL y_cat).

Ltac listdup := repeat (constructor; [cbn; intuition discriminate|]); constructor.
Lemma y_keys : keys_ok y_info.
Proof. constructor; try (cbn; listdup); intros r I; cases; reflexivity. Qed.
Lemma y_wf : cat_wf DMySQL y_cat.
Proof. constructor; [simpl; nodup|]. intros n Hn. cases; nswf. Qed.
Lemma y_lookup k x : db_objs y_db !! k = Some x -> In (k, x) (ns_objs DMySQL (Ns "" [] [] y_tabs)).
Proof. intros H. unfold y_db, cat_objs in H. cbn [db_objs] in H. apply elem_of_list_to_map_2, elem_of_list_In in H. rewrite <- app_nil_r. exact H. Qed.
Lemma y_has k x : In (k, x) (ns_objs DMySQL (Ns "" [] [] y_tabs)) -> db_objs y_db !! k = Some x.
Proof.
  intros H. unfold y_db, cat_objs. cbn [db_objs]. apply elem_of_list_to_map_1; [cbn; nodup|]. apply elem_of_list_In. rewrite <- app_nil_r in H. exact H.
Qed.
Lemma y_int4 : mysql_faithful int4.
Proof. apply (my_ints 4). cbn. auto. Qed.
Ltac kept := let e := fresh in let E := fresh in intros e E; first [discriminate E|injection E as <-; vm_compute; reflexivity].
Ltac lined := let s := fresh in let E := fresh in intros s E; first [discriminate E|injection E as <-; split; [discriminate|vm_compute; reflexivity]].
Lemma y_seen x : In x y_tabs -> my_tab_seen my_deparse DMySQL x.
Proof.
  intros Ix. cases; (constructor; [reflexivity|reflexivity|intros c Hc; cases; (constructor; [|kept|lined])|intros k Hk; cases|lined]); try exact y_int4.
  - apply my_varchar. left. lia.
  - apply my_datetime.
  - discriminate.
  - split; [discriminate|]. split; [reflexivity|]. exists (Some "shop"), "person". split; vm_compute; reflexivity.
Qed.
Ltac typedrow t r := exists t, r; repeat split; vm_compute; reflexivity.
Ltac extra0 := split; [intros (a & b & Z); exfalso; destruct a; discriminate Z|discriminate].
Ltac usesrow l := exists l; split; [vm_compute; reflexivity|split; vm_compute; reflexivity].
Ltac intcol := split; [constructor; reflexivity|]; split; [typedrow "integer" (DiscoverSpec.MyReport "int" "int" None (Some 10%Z) (Some 0%Z) None)|].
Notation y_home := (fun k : okey => ("app", snd k)).
Lemma y_tells : my_tells my_deparse y_info y_home (fun s => s = "") y_db.
Proof.
  constructor.
  - intros k x _ H. apply y_lookup in H. cases.
    + eexists _, (ITab "app" "shop__person" "people"). split; [reflexivity|]. split; [split; [cbn; auto|reflexivity]|]. split; [reflexivity|]. constructor.
      * intros n c X. apply want_cols_some in X as (m & Im & <- & ->). cases.
        -- exists (my_int "shop__person" "id" 1 None "auto_increment"). split; [split; [cbn; auto 20|reflexivity]|]. split; [reflexivity|]. intcol. split; [|reflexivity]. split; [reflexivity|]. intros _. exists "", "". reflexivity.
        -- exists (ICol "app" "shop__person" "name" 2 "varchar" "varchar(64)" "NO" None (Some 64%Z) None None None "" "full name"). split; [split; [cbn; auto 20|reflexivity]|]. split; [reflexivity|]. split; [constructor; reflexivity|].
           split; [typedrow "varchar(64)" (DiscoverSpec.MyReport "varchar" "varchar(64)" (Some 64%Z) None None None)|]. split; [extra0|reflexivity].
        -- exists (ICol "app" "shop__person" "created" 3 "datetime" "datetime" "YES" None None None None (Some 0%Z) "" ""). split; [split; [cbn; auto 20|reflexivity]|]. split; [reflexivity|]. split; [constructor; reflexivity|].
           split; [typedrow "datetime" (DiscoverSpec.MyReport "datetime" "datetime" None None None (Some 0%Z))|]. split; [extra0|reflexivity].
        -- exists (my_int "shop__person" "visits" 4 (Some "0") ""). split; [split; [cbn; auto 20|reflexivity]|]. split; [reflexivity|]. intcol. split; [extra0|reflexivity].
      * intros r (Ir & E). cases; try discriminate E; (eexists; vm_compute; reflexivity).
      * intros _. exists "PRIMARY". split; [cbn; auto|]. usesrow [IUse "app" "PRIMARY" "app" "shop__person" "id" 1 None].
      * discriminate.
      * intros n n' A B. unfold constraint_at in A, B. cases; reflexivity.
      * intros n m cs X. apply want_cons_some in X as [Ik E]. cases. split; [cbn; auto|]. usesrow [IUse "app" "uq_name" "app" "shop__person" "name" 1 None].
      * intros n A. unfold constraint_at in A. cbn in A. assert (n = "uq_name") as -> by (intuition congruence). eexists _, _. vm_compute. reflexivity.
      * intros n m cs rt rc X. apply want_cons_some in X as [Ik E]. cases.
      * intros x u Ix Iu E F. cases; discriminate || (cbn in E, F; congruence).
    + eexists _, (ITab "app" "shop__order" ""). split; [reflexivity|]. split; [split; [cbn; auto|reflexivity]|]. split; [reflexivity|]. constructor.
      * intros n c X. apply want_cols_some in X as (m & Im & <- & ->). cases.
        -- exists (my_int "shop__order" "id" 1 None ""). split; [split; [cbn; auto 20|reflexivity]|]. split; [reflexivity|]. intcol. split; [extra0|reflexivity].
        -- exists (my_int "shop__order" "buyer" 2 None ""). split; [split; [cbn; auto 20|reflexivity]|]. split; [reflexivity|]. intcol. split; [extra0|reflexivity].
      * intros r (Ir & E). cases; try discriminate E; (eexists; vm_compute; reflexivity).
      * intros _. exists "PRIMARY". split; [cbn; auto|]. usesrow [IUse "app" "PRIMARY" "app" "shop__order" "id" 1 None].
      * discriminate.
      * intros n n' A B. unfold constraint_at in A, B. cases; reflexivity.
      * intros n m cs X. apply want_cons_some in X as [Ik E]. cases.
      * intros n A. unfold constraint_at in A. cases.
      * intros n m cs rt rc X. apply want_cons_some in X as [Ik E]. cases. split.
        -- exists (IRef "app" "fk_buyer" "shop__order" "app" "PRIMARY"). split; [cbn; auto|reflexivity].
        -- usesrow [IUse "app" "fk_buyer" "app" "shop__order" "buyer" 1 (Some ("app", "shop__person", "id"))].
      * intros x u Ix Iu E F. cases; try (cbn in E, F; congruence). eexists _, _, _, _. split; [vm_compute; reflexivity|reflexivity].
  - intros [s k] r Own (Ir & E). cbn in Own. subst s. cases; cbn in E; try discriminate E; injection E as <-; eexists; apply y_has; cbn; auto.
Qed.
Definition y_view (D : db) : infoschema := match db_objs D !! ("", "shop__person") with Some _ => y_info | None => Info [] [] [] [] [] [] [] end.

(** ** SQL Server *)
Definition s_varchar := TSub MsVarChar (TVarChar (Some 64%Z)).
Definition s_person := Tab (shop "person")
  [Col "id" int4 false None true None; Col "name" s_varchar false None false (Some "full name"); ncol "created" (TSub MsDateTime (TTimestamp (Some 7%Z) false)); Col "visits" int4 false (Some "0") false None]
  ["id"] [CUnique "uq_name" ["name"]] (Some "people") None.
Definition s_order := Tab (shop "order") [col "id" int4; col "buyer" int4] ["id"] [CForeign "fk_buyer" ["buyer"] (shop "person") ["id"]] None None.
Definition s_tabs := [s_person; s_order].
Definition s_cat : catalog := [Ns "shop" [] [] s_tabs].
(** a server that shows defaults as written *)
Definition plain_deparse (ty : sqltype) (e : string) : string := e.
Definition ms_int (table name : string) (pos : Z) (dflt : option string) : icol :=
  ICol "shop" table name pos "int" "" "NO" dflt None (Some 10%Z) (Some 0%Z) None "" "".
Definition s_info : infoschema := {|
  is_tables := [ITab "dbo" "person" ""; ITab "shop" "order" ""; ITab "shop" "person" ""];
  is_columns :=
    [ICol "dbo" "person" "id" 1 "int" "" "NO" None None (Some 10%Z) (Some 0%Z) None "" "";
     ms_int "order" "id" 1 None; ms_int "order" "buyer" 2 None;
     ICol "shop" "person" "created" 3 "datetime2" "" "YES" None None None None (Some 7%Z) "" "";
     ms_int "person" "id" 1 None;
     ICol "shop" "person" "name" 2 "varchar" "" "NO" None (Some 64%Z) None None None "" "";
     ms_int "person" "visits" 4 (Some "0")];
  is_constraints :=
    [ICon "shop" "pk_order" "shop" "order" "PRIMARY KEY"; ICon "shop" "fk_buyer" "shop" "order" "FOREIGN KEY";
     ICon "shop" "pk_person" "shop" "person" "PRIMARY KEY"; ICon "shop" "uq_name" "shop" "person" "UNIQUE"];
  is_usage :=
    [IUse "shop" "pk_order" "shop" "order" "id" 1 None; IUse "shop" "fk_buyer" "shop" "order" "buyer" 1 None;
     IUse "shop" "pk_person" "shop" "person" "id" 1 None; IUse "shop" "uq_name" "shop" "person" "name" 1 None];
  is_refs := [IRef "shop" "fk_buyer" "" "shop" "pk_person"];
  sys_tables := [STab "dbo" "person" false; STab "shop" "order" false; STab "shop" "person" false];
  sys_columns :=
    [SCol "dbo" "person" "id" false None; SCol "shop" "order" "id" false None; SCol "shop" "order" "buyer" false None;
     SCol "shop" "person" "id" true None; SCol "shop" "person" "name" false None; SCol "shop" "person" "created" false None; SCol "shop" "person" "visits" false (Some "0")] |}.
Definition s_db : db := Db {["shop"]} (cat_objs DMSSQL s_cat).
Lemma s_keys : keys_ok s_info.
Proof. constructor; try (cbn; listdup); intros r I; cases; reflexivity. Qed.
Lemma s_apart : names_apart s_info.
Proof. intros u v Iu Iv E F. cases; try discriminate E; try discriminate F; reflexivity. Qed.
Lemma s_wf : cat_wf DMSSQL s_cat.
Proof. constructor; [simpl; nodup|]. intros n Hn. cases; nswf. Qed.
Lemma s_lookup k x : db_objs s_db !! k = Some x -> In (k, x) (ns_objs DMSSQL (Ns "shop" [] [] s_tabs)).
Proof. intros H. unfold s_db, cat_objs in H. cbn [db_objs] in H. apply elem_of_list_to_map_2, elem_of_list_In in H. rewrite <- app_nil_r. exact H. Qed.
Lemma s_has k x : In (k, x) (ns_objs DMSSQL (Ns "shop" [] [] s_tabs)) -> db_objs s_db !! k = Some x.
Proof.
  intros H. unfold s_db, cat_objs. cbn [db_objs]. apply elem_of_list_to_map_1; [cbn; nodup|]. apply elem_of_list_In. rewrite <- app_nil_r in H. exact H.
Qed.
Lemma s_int4 : mssql_faithful int4.
Proof. apply (ms_ints 4). cbn. auto. Qed.
Lemma s_seen n : In n s_cat -> ms_ns_seen plain_deparse (hush_ns n).
Proof.
  intros Hn. cases. constructor.
  - discriminate.
  - split; reflexivity.
  - discriminate.
  - intros x Hx. cases; reflexivity.
  - intros x Hx. cases; (constructor; [reflexivity|intros c Hc; cases; (constructor; [|kept|reflexivity])|intros k Hk; cases|reflexivity]); try exact s_int4.
    + apply ms_varchar. lia.
    + apply ms_datetime.
    + discriminate.
    + split; [discriminate|]. split; [reflexivity|]. exists "shop", "person". reflexivity.
Qed.
Ltac syscol x := exists x; split; [cbn; auto 20|]; split; [reflexivity|]; split; reflexivity.
Ltac mscol := split; [constructor; reflexivity|]; split; [typedrow "integer" (DiscoverSpec.MsReport "int" None (Some 10%Z) (Some 0%Z) None)|].
Notation s_home := (fun k : okey => k).
Lemma s_tells : ms_tells plain_deparse s_info s_home (fun s => In s ["shop"]) s_db.
Proof.
  constructor.
  - intros k x _ H. apply s_lookup in H. cases.
    + eexists _, (ITab "shop" "person" ""). split; [reflexivity|]. split; [split; [cbn; auto|reflexivity]|]. split; [cbn; auto|]. constructor.
      * intros n c X. apply want_cols_some in X as (m & Im & <- & ->). cases.
        -- exists (ms_int "person" "id" 1 None). split; [split; [cbn; auto 20|reflexivity]|]. split; [reflexivity|]. mscol. syscol (SCol "shop" "person" "id" true None).
        -- exists (ICol "shop" "person" "name" 2 "varchar" "" "NO" None (Some 64%Z) None None None "" ""). split; [split; [cbn; auto 20|reflexivity]|]. split; [reflexivity|]. split; [constructor; reflexivity|].
           split; [typedrow "varchar(64)" (DiscoverSpec.MsReport "varchar" (Some 64%Z) None None None)|]. syscol (SCol "shop" "person" "name" false None).
        -- exists (ICol "shop" "person" "created" 3 "datetime2" "" "YES" None None None None (Some 7%Z) "" ""). split; [split; [cbn; auto 20|reflexivity]|]. split; [reflexivity|]. split; [constructor; reflexivity|].
           split; [typedrow "datetime2" (DiscoverSpec.MsReport "datetime2" None None None (Some 7%Z))|]. syscol (SCol "shop" "person" "created" false None).
        -- exists (ms_int "person" "visits" 4 (Some "0")). split; [split; [cbn; auto 20|reflexivity]|]. split; [reflexivity|]. mscol. syscol (SCol "shop" "person" "visits" false (Some "0")).
      * intros r (Ir & E). cases; try discriminate E; (eexists; vm_compute; reflexivity).
      * intros _. exists "pk_person". split; [cbn; auto|]. usesrow [IUse "shop" "pk_person" "shop" "person" "id" 1 None].
      * discriminate.
      * intros n n' A B. unfold constraint_at in A, B. cases; reflexivity.
      * intros n m cs X. apply want_cons_some in X as [Ik E]. cases. split; [cbn; auto|]. usesrow [IUse "shop" "uq_name" "shop" "person" "name" 1 None].
      * intros n A. unfold constraint_at in A. cases. eexists _, _. vm_compute. reflexivity.
      * intros n m cs rt rc X. apply want_cons_some in X as [Ik E]. cases.
      * intros x u Ix Iu E F. cases; discriminate || (cbn in E, F; congruence).
    + eexists _, (ITab "shop" "order" ""). split; [reflexivity|]. split; [split; [cbn; auto|reflexivity]|]. split; [cbn; auto|]. constructor.
      * intros n c X. apply want_cols_some in X as (m & Im & <- & ->). cases.
        -- exists (ms_int "order" "id" 1 None). split; [split; [cbn; auto 20|reflexivity]|]. split; [reflexivity|]. mscol. syscol (SCol "shop" "order" "id" false None).
        -- exists (ms_int "order" "buyer" 2 None). split; [split; [cbn; auto 20|reflexivity]|]. split; [reflexivity|]. mscol. syscol (SCol "shop" "order" "buyer" false None).
      * intros r (Ir & E). cases; try discriminate E; (eexists; vm_compute; reflexivity).
      * intros _. exists "pk_order". split; [cbn; auto|]. usesrow [IUse "shop" "pk_order" "shop" "order" "id" 1 None].
      * discriminate.
      * intros n n' A B. unfold constraint_at in A, B. cases; reflexivity.
      * intros n m cs X. apply want_cons_some in X as [Ik E]. cases.
      * intros n A. unfold constraint_at in A. cases.
      * intros n m cs rt rc X. apply want_cons_some in X as [Ik E]. cases. exists (IRef "shop" "fk_buyer" "" "shop" "pk_person"). split; [cbn; auto|]. split; [reflexivity|]. split; [reflexivity|]. split.
        -- usesrow [IUse "shop" "fk_buyer" "shop" "order" "buyer" 1 None].
        -- usesrow [IUse "shop" "pk_person" "shop" "person" "id" 1 None].
      * intros x u Ix Iu E F. cases; try (cbn in E, F; congruence). eexists _, _, _, _. split; [vm_compute; reflexivity|reflexivity].
  - intros [s k] Own J. cbn [fst snd] in Own, J. cases; eexists; apply s_has; cbn; auto.
Qed.
Definition s_view (D : db) : infoschema := match db_objs D !! ("shop", "person") with Some _ => s_info | None => Info [] [] [] [] [] [] [] end.
