(** Specification: the rows of Oracle's data dictionary that stand for an abstract database (DbSpec.v).  Written from Oracle's
    reference of static data dictionary views; independent of the queries of the explorer. *)
From Verif Require Import PyStr QuoteModel Types Objects SqlAst Ddl DbSpec CatSpec OrExplore IsSeenSpec.
From Verif Require Import PropsDiscover.
From Verif Require DiscoverSpec.
From stdpp Require Import gmap strings.

Section Spec.
  (** how the server shows the default of a column; bytes per character *)
  Variable deparse : sqltype -> string -> string.
  Variable w : Z.
  Variable V : dictionary.
  (** the user that all tables belong to *)
  Variable user : string.

  (** ** Columns *)
  Definition column_of (t : string) (r : ocol) : Prop := In r (dba_tab_columns V) /\ (ol_owner r, ol_table r) = (user, t).
  Record col_row (r : ocol) (c : dbcol) : Prop := {
    cr_type : exists s x, type_str (dc_type c) = Ok s /\ DiscoverSpec.oracle_report w s = Some x /\ ol_towner r = None /\
              ol_type r = DiscoverSpec.ora_type x /\ ol_chars r = DiscoverSpec.ora_chars x /\ ol_length r = DiscoverSpec.ora_length x /\
              ol_prec r = DiscoverSpec.ora_precision x /\ ol_scale r = DiscoverSpec.ora_scale x;
    cr_null : ol_null r = if dc_null c then "Y"%string else "N"%string;
    cr_ident : ol_ident r = if dc_ident c then "YES"%string else "NO"%string;
    (* an identity column has the next value of its sequence as default *)
    cr_default : dc_ident c = false -> ol_default r = option_map (fun e => deparse (dc_type c) (snd e)) (dc_default c);
    (* each column has a row for its comment *)
    cr_comment : In (OCCom user (ol_table r) (ol_name r) (dc_comment c)) (dba_col_comments V) }.

  (** ** Constraints: names are unique for an owner; the columns are numbered from 1 *)
  Definition cols_of (n : string) (cs : list string) : Prop :=
    exists l, Permutation l (List.filter (fun r => String.eqb (ok_owner r) user && String.eqb (ok_name r) n) (dba_cons_columns V)) /\
      map ok_pos l = map Z.of_nat (seq 1 (List.length l)) /\ map ok_col l = cs.
  Definition constraint_of (t n kind : string) (ref : option (string * string)) : Prop := In (OCon user n kind t ref) (dba_constraints V).
  Record table_rows (t : string) (tb : dbtab) : Prop := {
    tr_cols : forall n c, dt_cols tb !! n = Some c -> exists r, column_of t r /\ ol_name r = n /\ col_row r c;
    tr_only : forall r, column_of t r -> is_Some (dt_cols tb !! ol_name r);
    tr_pk : dt_pk tb <> [] -> exists n, constraint_of t n "P" None /\ cols_of n (dt_pk tb);
    tr_pk_only : forall n ref, constraint_of t n "P" ref -> dt_pk tb <> [];
    tr_pk_one : forall n n' ref ref', constraint_of t n "P" ref -> constraint_of t n' "P" ref' -> n = n';
    tr_unique : forall n m cs, dt_cons tb !! n = Some (CUnique m cs) -> constraint_of t n "U" None /\ cols_of n cs;
    tr_unique_only : forall n ref, constraint_of t n "U" ref -> exists m cs, dt_cons tb !! n = Some (CUnique m cs);
    (* a foreign key refers to a primary key or a unique constraint of the other table *)
    tr_foreign : forall n m cs rt rc, dt_cons tb !! n = Some (CForeign m cs rt rc) ->
                 exists k kind, constraint_of t n "R" (Some (user, k)) /\ cols_of n cs /\ constraint_of (local_id rt) k kind None /\ cols_of k rc;
    tr_foreign_only : forall n ref, constraint_of t n "R" ref -> exists m cs rt rc, dt_cons tb !! n = Some (CForeign m cs rt rc) }.

  (** ** The views as a whole *)
  Record keys_ok : Prop := {
    ko_tab : List.NoDup (map (fun r => (ot_owner r, ot_name r)) (dba_tables V));
    ko_tcom : List.NoDup (map (fun r => (oc_owner r, oc_table r)) (dba_tab_comments V));
    ko_col : List.NoDup (map (fun r => (ol_owner r, ol_table r, ol_name r)) (dba_tab_columns V));
    ko_ccom : List.NoDup (map (fun r => (om_owner r, om_table r, om_col r)) (dba_col_comments V));
    ko_con : List.NoDup (map (fun r => (on_owner r, on_name r)) (dba_constraints V)) }.
  (** no other user has a table (or a view) of that name *)
  Definition alone (t : string) : Prop :=
    (forall r, In r (dba_tables V) -> ot_name r = t -> ot_owner r = user) /\
    (forall r, In r (dba_tab_columns V) -> ol_table r = t -> ol_owner r = user) /\
    (forall r, In r (dba_constraints V) -> on_table r = t -> on_owner r = user).
  (** a table that is not part of the system; its tablespace is known (unlike that of partitioned and temporary tables) *)
  Definition ordinary (r : otab) : Prop := ot_owner r <> "SYS"%string /\ (exists s, ot_space r = Some s /\ s <> "SYSAUX"%string) /\ ot_plain r = true.
  (** ... with a row for its comment *)
  Definition table_of (t : string) (comment : option string) : Prop :=
    exists r, In r (dba_tables V) /\ (ot_owner r, ot_name r) = (user, t) /\ ordinary r /\ In (OTCom user t comment) (dba_tab_comments V).
  (** the views tell about the tables of database [D]: those of [user]; there are no types *)
  Record or_tells (D : db) : Prop := {
    ot_objs : forall k x, db_objs D !! (""%string, k) = Some x ->
              exists tb, x = OTable tb /\ table_of k (dt_comment tb) /\ alone k /\ table_rows k tb;
    ot_only : forall r, In r (dba_tables V) -> ot_owner r = user -> ordinary r -> is_Some (db_objs D !! (""%string, ot_name r)) }.
End Spec.

(** ** Objects that Oracle and its explorer can show as they were declared *)
Section Seen.
  Variable deparse : sqltype -> string -> string.
  (** comments are not stored *)
  Record or_col_seen (c : column) : Prop := { oc_type : oracle_faithful (c_type c); oc_default : default_kept deparse DOracle c; oc_desc : c_desc c = None }.
  Definition or_constr_seen (k : constr) : Prop :=
    match k with
    | CUnique _ cs => cs <> []
    | CForeign _ cs rt rc => List.length cs = 1 /\ List.length rc = 1 /\ splits rt
    | _ => False
    end.
  Record or_tab_seen (t : table) : Prop := {
    ot_enum : t_enum t = None;
    ot_cols : forall c, In c (t_columns t) -> or_col_seen c;
    ot_cons : forall k, In k (t_constraints t) -> or_constr_seen k;
    ot_desc : t_desc t = None }.
End Seen.
