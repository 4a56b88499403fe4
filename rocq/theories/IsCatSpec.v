(** Specification: the rows of the information schema (MySQL, SQL Server) that stand for an abstract database (DbSpec.v).  Written
    from the manuals of the servers; independent of the queries of the explorers. *)
From Verif Require Import PyStr QuoteModel Types Objects SqlAst DbSpec IsExplore.
From Verif Require DiscoverSpec.
From Coq Require Import Sorted.
From stdpp Require Import gmap strings.

Section Spec.
  (** how a server shows the default of a column *)
  Variable deparse : sqltype -> string -> string.
  Variable I : infoschema.
  (** schema and name *)
  Notation place := (string * string)%type.

  (** ** Columns *)
  Definition column_at (p : place) (r : icol) : Prop := In r (is_columns I) /\ (ic_schema r, ic_table r) = p.
  (** [dflt]: what is shown as the default *)
  Record col_row (r : icol) (c : dbcol) : Prop := {
    cr_null : ic_null r = if dc_null c then "YES"%string else "NO"%string;
    cr_default : ic_default r = option_map (fun e => deparse (dc_type c) (snd e)) (dc_default c) }.
  Definition my_type_row (r : icol) (ty : sqltype) : Prop :=
    exists s x, type_str ty = Ok s /\ DiscoverSpec.mysql_report s = Some x /\
      ic_data r = DiscoverSpec.data_type x /\ ic_type r = DiscoverSpec.column_type x /\ ic_chars r = DiscoverSpec.my_chars x /\
      ic_prec r = DiscoverSpec.my_precision x /\ ic_scale r = DiscoverSpec.my_scale x /\ ic_frac r = DiscoverSpec.my_fraction x.
  Definition ms_type_row (r : icol) (ty : sqltype) : Prop :=
    exists s x, type_str ty = Ok s /\ DiscoverSpec.mssql_report s = Some x /\
      ic_data r = DiscoverSpec.ms_type x /\ ic_chars r = DiscoverSpec.ms_chars x /\
      ic_prec r = DiscoverSpec.ms_precision x /\ ic_scale r = DiscoverSpec.ms_scale x /\ ic_frac r = DiscoverSpec.ms_fraction x.
  (** the word that marks an identity column of MySQL among the remarks; an absent comment is shown as an empty one *)
  Definition my_col_row (r : icol) (c : dbcol) : Prop :=
    col_row r c /\ my_type_row r (dc_type c) /\ ((exists a b, ic_extra r = a ++ "auto_increment" ++ b)%string <-> dc_ident c = true) /\
    ic_comment r = default ""%string (dc_comment c).
  (** SQL Server has identity and default in its own catalog *)
  Definition ms_col_row (r : icol) (c : dbcol) : Prop :=
    col_row r c /\ ms_type_row r (dc_type c) /\
    exists x, In x (sys_columns I) /\ (sc_schema x, sc_table x, sc_name x) = (ic_schema r, ic_table r, ic_name r) /\
      sc_identity x = dc_ident c /\ sc_default x = ic_default r.

  (** ** Constraints: the columns of the constraint [n] of table [p], numbered from 1, each with the column it refers to *)
  Definition uses (p : place) (n : string) (cols : list (string * option (string * string * string))) : Prop :=
    exists l, Permutation l (List.filter (fun r => String.eqb (ku_schema r) (fst p) && String.eqb (ku_name r) n && String.eqb (ku_tschema r) (fst p) && String.eqb (ku_table r) (snd p)) (is_usage I)) /\
      map ku_pos l = map Z.of_nat (seq 1 (List.length l)) /\ map (fun r => (ku_col r, ku_ref r)) l = cols.
  Definition plain_cols (cs : list string) : list (string * option (string * string * string)) := map (fun c => (c, None)) cs.
  (** a constraint is in the schema of its table *)
  Definition constraint_at (p : place) (n kind : string) : Prop := In (ICon (fst p) n (fst p) (snd p) kind) (is_constraints I).

  (** where a table of the database is *)
  Variable home : okey -> place.
  (** a foreign key: MySQL shows the columns that are referenced ... *)
  Definition my_foreign_row (p : place) (n : string) (cs : list string) (rt : qid) (rc : list string) : Prop :=
    let h := home (key_of rt) in
    (exists x, In x (is_refs I) /\ (rf_schema x, rf_name x, rf_table x) = (fst p, n, snd p)) /\
    uses p n (map (fun c => (fst c, Some (fst h, snd h, snd c))) (combine cs rc)).
  (** ... SQL Server the key of the other table that is referenced *)
  Definition ms_foreign_row (p : place) (n : string) (cs : list string) (rt : qid) (rc : list string) : Prop :=
    let h := home (key_of rt) in
    exists x, In x (is_refs I) /\ (rf_schema x, rf_name x) = (fst p, n) /\ rf_uschema x = fst h /\ uses p n (plain_cols cs) /\ uses h (rf_uname x) (plain_cols rc).

  Section Table.
    Variable column_row : icol -> dbcol -> Prop.
    Variable foreign_row : place -> string -> list string -> qid -> list string -> Prop.
    Record table_rows (p : place) (tb : dbtab) : Prop := {
      tr_cols : forall n c, dt_cols tb !! n = Some c -> exists r, column_at p r /\ ic_name r = n /\ column_row r c;
      tr_only : forall r, column_at p r -> is_Some (dt_cols tb !! ic_name r);
      (* the name of the primary key is that of no other constraint of the table *)
      tr_pk : dt_pk tb <> [] -> exists n, constraint_at p n "PRIMARY KEY" /\ uses p n (plain_cols (dt_pk tb));
      tr_pk_only : forall n, constraint_at p n "PRIMARY KEY" -> dt_pk tb <> [];
      tr_pk_one : forall n n', constraint_at p n "PRIMARY KEY" -> constraint_at p n' "PRIMARY KEY" -> n = n';
      tr_unique : forall n m cs, dt_cons tb !! n = Some (CUnique m cs) -> constraint_at p n "UNIQUE" /\ uses p n (plain_cols cs);
      tr_unique_only : forall n, constraint_at p n "UNIQUE" -> exists m cs, dt_cons tb !! n = Some (CUnique m cs);
      tr_foreign : forall n m cs rt rc, dt_cons tb !! n = Some (CForeign m cs rt rc) -> foreign_row p n cs rt rc;
      (* rows that tell of a foreign key of the table *)
      tr_foreign_only : forall x u, In x (is_refs I) -> In u (is_usage I) -> (ku_schema u, ku_name u) = (rf_schema x, rf_name x) -> (ku_tschema u, ku_table u) = p ->
                        exists m cs rt rc, dt_cons tb !! rf_name x = Some (CForeign m cs rt rc) /\ rf_schema x = fst p }.
  End Table.

  (** ** The views as a whole: unique keys *)
  Record keys_ok : Prop := {
    ko_tab : List.NoDup (map (fun r => (it_schema r, it_name r)) (is_tables I));
    ko_col : List.NoDup (map (fun r => (ic_schema r, ic_table r, ic_name r)) (is_columns I));
    ko_con : List.NoDup (map (fun r => (tc_schema r, tc_name r, tc_tschema r, tc_table r)) (is_constraints I));
    ko_ref : List.NoDup (map (fun r => (rf_schema r, rf_name r)) (is_refs I));
    (* constraints are in the schemas of their tables *)
    ko_con_schema : forall r, In r (is_constraints I) -> tc_schema r = tc_tschema r;
    ko_use_schema : forall r, In r (is_usage I) -> ku_schema r = ku_tschema r;
    ko_stab : List.NoDup (map (fun r => (st_schema r, st_name r)) (sys_tables I));
    ko_scol : List.NoDup (map (fun r => (sc_schema r, sc_table r, sc_name r)) (sys_columns I)) }.
  (** SQL Server: constraints of a schema have different names (in MySQL each table has a constraint PRIMARY) *)
  Definition names_apart : Prop :=
    forall u v, In u (is_usage I) -> In v (is_usage I) -> ku_schema u = ku_schema v -> ku_name u = ku_name v -> (ku_tschema u, ku_table u) = (ku_tschema v, ku_table v).

  Definition table_at (p : place) (r : itab) : Prop := In r (is_tables I) /\ (it_schema r, it_name r) = p.
  (** The views tell about the tables of database [D] in the schemas [own]; there are no views and no types. *)
  Variable own : string -> Prop.
  Record my_tells (D : db) : Prop := {
    mt_objs : forall k x, own (fst k) -> db_objs D !! k = Some x ->
              exists tb r, x = OTable tb /\ table_at (home k) r /\ it_comment r = default ""%string (dt_comment tb) /\ table_rows my_col_row my_foreign_row (home k) tb;
    mt_only : forall k r, own (fst k) -> table_at (home k) r -> is_Some (db_objs D !! k) }.
  Record ms_tells (D : db) : Prop := {
    st_objs : forall k x, own (fst k) -> db_objs D !! k = Some x ->
              exists tb r, x = OTable tb /\ table_at (home k) r /\ In (STab (fst (home k)) (snd (home k)) false) (sys_tables I) /\ table_rows ms_col_row ms_foreign_row (home k) tb;
    st_only : forall k, own (fst k) -> In (STab (fst (home k)) (snd (home k)) false) (sys_tables I) -> is_Some (db_objs D !! k) }.
End Spec.

(** ** The order of rows: any.  MySQL: without ORDER BY the rows of a foreign key come as they are in the view, and there in the
    order of its columns, which no manual promises (for keys of one column it is trivial) *)
Definition any_order (order : forall A : Type, string -> list A -> list A) : Prop :=
  forall A q (l : list A), Permutation (order A q l) l.
Definition keys_in_order (I : infoschema) (order : forall A : Type, string -> list A -> list A) : Prop :=
  (forall s t n, StronglySorted (fun a b => (ku_pos a <= ku_pos b)%Z) (List.filter (fun r => String.eqb (ku_schema r) s && String.eqb (ku_name r) n && String.eqb (ku_tschema r) s && String.eqb (ku_table r) t) (is_usage I))) /\
  (forall q (l : list (Z * Factory.frow)) n, let one := List.filter (fun r => String.eqb (Factory.f_name (snd r)) n) in one (order _ q l) = one l).
