(** A concrete database of Oracle with its data dictionary, used by PropsOracle.v *)
From Verif Require Import PyStr QuoteModel QuoteSpec ObjectDict Types Objects SqlAst Ddl Mutate DbSpec CatSpec MutSpec RefSpec KeySpec ExCat IsExplore PropsDiscover Flat FlatSpec PropsFlat Session SessionSpec OrExplore OrCatSpec IsSeenSpec.
From Verif Require DiscoverSpec Factory CatProofs4.
From Verif Require Import PgProofs1 PgProofs3 ExInfo IsProofs3 OrProofs2 HushSpec.
From Coq Require Import List String Sorted Permutation Lia.
From stdpp Require Import gmap strings.
Open Scope string_scope.
Open Scope list_scope.

Definition onum := TSub OraInt (int_of 8).
Definition o_person := Tab (shp "person")
  [Col "id" onum false None true None; Col "name" (TSub OraVarChar (TVarChar (Some 64%Z))) false None false (Some "full name");
   ncol "created" (TSub OraTimestamp (TTimestamp None false)); Col "visits" onum false (Some "0") false None]
  ["id"] [CUnique "uq_name" ["name"]] (Some "people") None.
Definition o_order := Tab (shp "order") [col "id" onum; col "buyer" onum] ["id"] [CForeign "fk_buyer" ["buyer"] (shp "person") ["id"]] None None.
Definition o_tabs := [o_person; o_order].
Definition o_cat : catalog := [Ns "" [] [] o_tabs].
Definition ora_num (table name : string) (pos : Z) (dflt : option string) (ident : string) : ocol :=
  OCol "APP" table name pos "NUMBER" None 22 None None "N" dflt 0 ident.
Definition o_name : ocol := OCol "APP" "shop__person" "name" 2 "VARCHAR2" None 256 None None "N" None 64 "NO".
Definition o_created : ocol := OCol "APP" "shop__person" "created" 3 "TIMESTAMP(6)" None 11 None (Some 6%Z) "Y" None 0 "NO".
(** an identity column has a default; a NOT NULL constraint of a column is of type C; another user has a table in another namespace *)
Definition o_dict : dictionary := {|
  dba_tables := [OTab "APP" "shop__order" (Some "USERS") true; OTab "APP" "shop__person" (Some "USERS") true; OTab "HR" "staff__person" (Some "USERS") true; OTab "SYS" "shop__log" (Some "SYSTEM") true];
  dba_tab_comments := [OTCom "APP" "shop__order" None; OTCom "APP" "shop__person" None; OTCom "HR" "staff__person" (Some "employees"); OTCom "SYS" "shop__log" None];
  dba_tab_columns :=
    [ora_num "shop__order" "id" 1 None "NO"; ora_num "shop__order" "buyer" 2 None "NO"; o_created;
     ora_num "shop__person" "id" 1 (Some """APP"".""ISEQ$$_1"".nextval") "YES"; o_name; ora_num "shop__person" "visits" 4 (Some "0") "NO";
     OCol "HR" "staff__person" "id" 1 "NUMBER" None 22 None None "N" None 0 "NO"];
  dba_col_comments :=
    [OCCom "APP" "shop__order" "id" None; OCCom "APP" "shop__order" "buyer" None; OCCom "APP" "shop__person" "id" None; OCCom "APP" "shop__person" "name" None;
     OCCom "APP" "shop__person" "created" None; OCCom "APP" "shop__person" "visits" None; OCCom "HR" "staff__person" "id" None];
  dba_constraints :=
    [OCon "APP" "SYS_C1" "C" "shop__order" None; OCon "APP" "pk_order" "P" "shop__order" None; OCon "APP" "fk_buyer" "R" "shop__order" (Some ("APP", "pk_person"));
     OCon "APP" "SYS_C2" "C" "shop__person" None; OCon "APP" "pk_person" "P" "shop__person" None; OCon "APP" "uq_name" "U" "shop__person" None;
     OCon "HR" "pk_person" "P" "staff__person" None];
  dba_cons_columns :=
    [OConCol "APP" "SYS_C1" "buyer" 0; OConCol "APP" "pk_order" "id" 1; OConCol "APP" "fk_buyer" "buyer" 1; OConCol "APP" "SYS_C2" "name" 0;
     OConCol "APP" "pk_person" "id" 1; OConCol "APP" "uq_name" "name" 1; OConCol "HR" "pk_person" "id" 1] |}.
Definition o_db : db := Db ∅ (cat_objs DOracle o_cat).
Lemma o_keys : keys_ok o_dict.
Proof. constructor; cbn; listdup. Qed.
Lemma o_wf : cat_wf DOracle o_cat.
Proof. constructor; [simpl; nodup|]. intros n Hn. cases; nswf. Qed.
Lemma o_lookup k x : db_objs o_db !! k = Some x -> In (k, x) (ns_objs DOracle (Ns "" [] [] o_tabs)).
Proof. intros H. unfold o_db, cat_objs in H. cbn [db_objs] in H. apply elem_of_list_to_map_2, elem_of_list_In in H. rewrite <- app_nil_r. exact H. Qed.
Lemma o_has k x : In (k, x) (ns_objs DOracle (Ns "" [] [] o_tabs)) -> db_objs o_db !! k = Some x.
Proof.
  intros H. unfold o_db, cat_objs. cbn [db_objs]. apply elem_of_list_to_map_1; [cbn; nodup|]. apply elem_of_list_In. rewrite <- app_nil_r in H. exact H.
Qed.
Lemma o_seen x : In x o_tabs -> or_tab_seen plain_deparse (hush_tab x).
Proof.
  intros Ix. cases; (constructor; [reflexivity|intros c Hc; cases; (constructor; [|kept|reflexivity])|intros k Hk; cases|reflexivity]); try exact ora_int.
  - apply ora_varchar. lia.
  - apply ora_timestamp.
  - discriminate.
  - split; [reflexivity|]. split; [reflexivity|]. exists (Some "shop"), "person". split; vm_compute; reflexivity.
Qed.
Ltac orarow t r := exists t, r; repeat split; vm_compute; reflexivity.
Ltac numcol := constructor; [orarow "number" (DiscoverSpec.OraReport "NUMBER" 0%Z 22%Z None None)|reflexivity|reflexivity|first [intros _; reflexivity|discriminate]|cbn; auto 20].
Ltac consrow l := exists l; split; [vm_compute; reflexivity|split; vm_compute; reflexivity].
Ltac atcol := split; [split; [cbn; auto 20|reflexivity]|]; split; [reflexivity|].
Ltac lonely := split; [|split]; intros r I E; cases; try discriminate E; reflexivity.
Ltac nocons := let A := fresh in intros ? ? A; unfold constraint_of in A; cases.
Lemma o_tells : or_tells plain_deparse 4%Z o_dict "APP" o_db.
Proof.
  constructor.
  - intros k x H. apply o_lookup in H. cases.
    + eexists. split; [reflexivity|]. split; [|split; [lonely|]].
      { exists (OTab "APP" "shop__person" (Some "USERS") true). split; [cbn; auto|]. split; [reflexivity|]. split; [|cbn; auto]. split; [discriminate|]. split; [|reflexivity]. exists "USERS". split; [reflexivity|discriminate]. }
      constructor.
      * intros n c X. apply want_cols_some in X as (m & Im & <- & ->). cases.
        -- exists (ora_num "shop__person" "id" 1 (Some """APP"".""ISEQ$$_1"".nextval") "YES"). atcol. numcol.
        -- exists o_name. atcol. constructor; [orarow "varchar2(64)" (DiscoverSpec.OraReport "VARCHAR2" 64%Z 256%Z None None)|reflexivity|reflexivity|intros _; reflexivity|cbn; auto 20].
        -- exists o_created. atcol. constructor; [orarow "timestamp" (DiscoverSpec.OraReport "TIMESTAMP(6)" 0%Z 11%Z None (Some 6%Z))|reflexivity|reflexivity|intros _; reflexivity|cbn; auto 20].
        -- exists (ora_num "shop__person" "visits" 4 (Some "0") "NO"). atcol. numcol.
      * intros r (Ir & E). cases; try discriminate E; (eexists; vm_compute; reflexivity).
      * intros _. exists "pk_person". split; [cbn; auto 20|]. consrow [OConCol "APP" "pk_person" "id" 1].
      * discriminate.
      * intros n n' ref ref' A B. unfold constraint_of in A, B. cases; reflexivity.
      * intros n m cs X. apply want_cons_some in X as [Ik E]. cases. split; [cbn; auto 20|]. consrow [OConCol "APP" "uq_name" "name" 1].
      * intros n ref A. unfold constraint_of in A. cases. eexists _, _. vm_compute. reflexivity.
      * intros n m cs rt rc X. apply want_cons_some in X as [Ik E]. cases.
      * nocons.
    + eexists. split; [reflexivity|]. split; [|split; [lonely|]].
      { exists (OTab "APP" "shop__order" (Some "USERS") true). split; [cbn; auto|]. split; [reflexivity|]. split; [|cbn; auto]. split; [discriminate|]. split; [|reflexivity]. exists "USERS". split; [reflexivity|discriminate]. }
      constructor.
      * intros n c X. apply want_cols_some in X as (m & Im & <- & ->). cases.
        -- exists (ora_num "shop__order" "id" 1 None "NO"). atcol. numcol.
        -- exists (ora_num "shop__order" "buyer" 2 None "NO"). atcol. numcol.
      * intros r (Ir & E). cases; try discriminate E; (eexists; vm_compute; reflexivity).
      * intros _. exists "pk_order". split; [cbn; auto 20|]. consrow [OConCol "APP" "pk_order" "id" 1].
      * discriminate.
      * intros n n' ref ref' A B. unfold constraint_of in A, B. cases; reflexivity.
      * intros n m cs X. apply want_cons_some in X as [Ik E]. cases.
      * nocons.
      * intros n m cs rt rc X. apply want_cons_some in X as [Ik E]. cases. exists "pk_person", "P". split; [cbn; auto 20|]. split; [consrow [OConCol "APP" "fk_buyer" "buyer" 1]|]. split; [cbn; auto 20|]. consrow [OConCol "APP" "pk_person" "id" 1].
      * intros n ref A. unfold constraint_of in A. cases. eexists _, _, _, _. vm_compute. reflexivity.
  - intros r Ir E (Sy & _). cases; try discriminate E; (eexists; apply o_has; cbn; auto).
Qed.
Definition o_view (D : db) : dictionary := match db_objs D !! ("", "shop__person") with Some _ => o_dict | None => Dict [] [] [] [] [] [] end.
Definition o_listed (D : db) (m : string) : list string := List.filter (fun t => starts_with (m ++ "__")%string t && negb (has_char "$" t))%bool (candidates (o_view D)).
Notation o_explorer := (or_explorer stored o_view o_listed).
Lemma o_plus : plus_cat DOracle o_cat empty_db = o_db.
Proof. unfold plus_cat, o_db, empty_db. cbn [db_schemas db_objs]. f_equal; [set_solver|apply (right_id ∅ (∪))]. Qed.
Lemma o_in_view : o_view o_db = o_dict.
Proof. unfold o_view. rewrite (o_has _ (OTable (want_tab DOracle o_person))) by (cbn; auto). reflexivity. Qed.
Lemma o_reports : or_reports plain_deparse 4%Z "APP" o_view o_listed o_db ["shop"].
Proof.
  unfold or_reports, o_listed. rewrite o_in_view. split; [exact o_keys|]. split; [exact o_tells|]. split.
  - intros m Im. cases. split; [vm_compute; listdup|]. intros t. change (scope_of "shop") with (Some "shop"). rewrite in_namespace_some. unfold oracle_visible. rewrite filter_In, andb_true_iff, negb_true_iff. reflexivity.
  - intros m r Im Ir (Sy & _) In_. cases; cbn in Sy |- *; try congruence; apply in_namespace_some in In_; discriminate In_.
Qed.
