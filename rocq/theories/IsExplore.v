(** Model of the explorers that read the information schema: pysqlsync/formation/discovery.py [AnsiExplorer],
    dialect/mysql/discovery.py [MySQLExplorer], dialect/mssql/discovery.py [MSSQLExplorer], and of the server side of
    their queries.

    The views of the information schema are lists of rows ([infoschema]); only the columns that the queries use are kept.
    A SELECT is a comprehension over these lists in the order of its joins; the server delivers the rows in any order it
    likes ([order]; the first argument identifies the query), and ORDER BY sorts them.  Names come into the text of a query
    as [quote(...)]: a condition compares a column with the string that the server reads from the literal ([literal]).
    Simplifications: names are compared byte by byte (servers may be configured to ignore case); there is one catalog, so
    the conditions on [constraint_catalog] hold; the information schema has the views and columns that the explorer probes
    for ([has_constraints] and [has_column_extended_info], 71-119, return true); rows are passed on as they are (the
    conversion to data-classes is C40). *)
From Verif Require Import PyStr QuoteModel QuoteSpec ObjectDict Types Objects Factory Discover PgExplore.
Open Scope list_scope.

(** ** Information schema *)
Record itab : Type := ITab { it_schema : string; it_name : string; it_comment : string }.
Record icol : Type := ICol {
  ic_schema : string; ic_table : string; ic_name : string; ic_pos : Z; ic_data : string; ic_type : string; ic_null : string;
  ic_default : option string; ic_chars : option Z; ic_prec : option Z; ic_scale : option Z; ic_frac : option Z;
  ic_extra : string; ic_comment : string }.
Record icon : Type := ICon { tc_schema : string; tc_name : string; tc_tschema : string; tc_table : string; tc_type : string }.
(** the last column: schema, table and column that is referenced (MySQL) *)
Record iuse : Type := IUse { ku_schema : string; ku_name : string; ku_tschema : string; ku_table : string; ku_col : string; ku_pos : Z; ku_ref : option (string * string * string) }.
Record iref : Type := IRef { rf_schema : string; rf_name : string; rf_table : string; rf_uschema : string; rf_uname : string }.
(** SQL Server: sys.tables and sys.columns, joined with sys.schemas and sys.default_constraints by object identifiers *)
Record stab : Type := STab { st_schema : string; st_name : string; st_shipped : bool }.
Record scol : Type := SCol { sc_schema : string; sc_table : string; sc_name : string; sc_identity : bool; sc_default : option string }.
Record infoschema : Type := Info {
  is_tables : list itab; is_columns : list icol; is_constraints : list icon; is_usage : list iuse; is_refs : list iref;
  sys_tables : list stab; sys_columns : list scol }.

(** Python's [sub in s] *)
Fixpoint contains (sub s : string) : bool :=
  starts_with sub s || match s with ""%string => false | String _ r => contains sub r end.
Definition by_pos {A} (a b : Z * A) : bool := Z.leb (fst a) (fst b).

Section Ansi.
  Variable I : infoschema.
  Variable order : forall A : Type, string -> list A -> list A.
  Arguments order {A}.
  Variable literal : string -> option (string * string).
  (** what CURRENT_SCHEMA(), DATABASE() or SCHEMA_NAME() returns *)
  Variable current : string.

  Definition equals (v lit : string) : bool := match literal lit with Some (s, ""%string) => String.eqb v s | _ => false end.
  (** [_where_table], formation/discovery.py:131-142 *)
  Definition where_table (q : qid) (schema name : string) : bool :=
    match scope_id q with Some s => equals schema (quote s) | None => String.eqb schema current end
    && equals name (quote (local_id q)).
  (** [has_table], 144-151 *)
  Definition q_table (q : qid) : list itab := from tab of is_tables I; where_ where_table q (it_schema tab) (it_name tab); [tab].
  Definition has_table (q : qid) : bool := Nat.ltb 0 (length (q_table q)).
  (** [has_column], 153-164 *)
  Definition q_columns (q : qid) : list (Z * icol) := from col of is_columns I; where_ where_table q (ic_schema col) (ic_table col); [(ic_pos col, col)].
  Definition has_column (q : qid) (c : string) : bool :=
    Nat.ltb 0 (length (from col of q_columns q; where_ equals (ic_name (snd col)) (quote c); [tt])).
  (** the rows for the columns, in order: 194-207, and dialect/mysql/discovery.py:70-87 *)
  Definition column_rows (q : qid) : list icol := map snd (sort_by by_pos (order ("columns " ++ local_id q)%string (q_columns q))).

  (** the join of constraints and key columns, 231-243 and 250-265 *)
  Definition q_keys (q : qid) (kind : string) : list (Z * (string * string)) :=
    from tab of is_constraints I;
    from kcu of is_usage I; where_ String.eqb (tc_schema tab) (ku_schema kcu) && String.eqb (tc_name tab) (ku_name kcu);
    where_ where_table q (tc_tschema tab) (tc_table tab) && where_table q (ku_tschema kcu) (ku_table kcu) && String.eqb (tc_type tab) kind;
    [(ku_pos kcu, (ku_name kcu, ku_col kcu))].
  (** [get_table_primary_key], 228-245 *)
  Definition primary_key (q : qid) : list string :=
    map (fun r => snd (snd r)) (sort_by by_pos (order ("primary " ++ local_id q)%string (q_keys q "PRIMARY KEY"))).
  (** [get_unique_constraints], 247-270 *)
  Definition unique_rows (q : qid) : list (string * string) := map snd (sort_by by_pos (order ("unique " ++ local_id q)%string (q_keys q "UNIQUE"))).
  (** [get_referential_constraints], 272-310 *)
  Definition q_foreign (q : qid) : list (Z * frow) :=
    from ref of is_refs I;
    from kcu1 of is_usage I; where_ String.eqb (ku_schema kcu1) (rf_schema ref) && String.eqb (ku_name kcu1) (rf_name ref);
    from kcu2 of is_usage I; where_ String.eqb (ku_schema kcu2) (rf_uschema ref) && String.eqb (ku_name kcu2) (rf_uname ref);
    where_ where_table q (ku_tschema kcu1) (ku_table kcu1) && Z.eqb (ku_pos kcu1) (ku_pos kcu2);
    [(ku_pos kcu1, FRow (ku_name kcu1) (ku_col kcu1) (Qualified (Some (ku_tschema kcu2)) (ku_table kcu2)) (ku_col kcu2))].
  Definition foreign_rows (q : qid) : list frow := map snd (sort_by by_pos (order ("foreign " ++ local_id q)%string (q_foreign q))).

  (** [get_table], 317-341.  [columns], [foreign] and [description]: what the methods of the explorer return *)
  Definition get_table (columns : res (list column)) (foreign : list frow) (description : res (option string)) (q : qid) : res table :=
    if has_table q then
      do cs <- columns;
      do fks <- ff_run foreign;
      do d <- description;
      Ok (Tab q (od_make c_name cs) (primary_key q) (od_make Objects.k_name (uf_run (unique_rows q) ++ fks)) d None)
    else Err "DiscoveryError".
  (** [CASE WHEN is_nullable = 'YES' THEN 1 ELSE 0 END] *)
  Definition nullable (r : icol) : bool := String.eqb (ic_null r) "YES".

  (** ** MySQL, dialect/mysql/discovery.py *)
  (** 89-108 *)
  Definition my_column (r : icol) : res column :=
    do t <- mysql_discover (ic_data r) (ic_type r) (ic_chars r) (ic_prec r) (ic_scale r) (ic_frac r);
    Ok (Col (ic_name r) t (nullable r) (ic_default r) (contains "auto_increment" (ic_extra r)) (or_none (Some (ic_comment r)))).
  (** 113-142; there is no ORDER BY *)
  Definition q_my_foreign (q : qid) : list (Z * frow) :=
    from ref of is_refs I;
    from kcu of is_usage I; where_ String.eqb (ku_schema kcu) (rf_schema ref) && String.eqb (ku_name kcu) (rf_name ref);
    where_ equals (rf_table ref) (quote (local_id q)) && where_table q (ku_tschema kcu) (ku_table kcu);
    (* [split_composite_id], 62-67; a column that is NULL is written as an empty name *)
    [(ku_pos kcu, let '(_, t, c) := match ku_ref kcu with Some x => x | None => (""%string, ""%string, ""%string) end in
                  FRow (ku_name kcu) (ku_col kcu) (let '(n, i) := split_composite_id t in Prefixed n i) c)].
  Definition my_foreign_rows (q : qid) : list frow := map snd (order ("foreign " ++ local_id q)%string (q_my_foreign q)).
  (** [get_table_description], 144-154 *)
  Definition my_description (q : qid) : res (option string) :=
    match order ("description " ++ local_id q)%string (q_table q) with
    | [] => Err "IndexError"
    | r :: _ => Ok (or_none (Some (it_comment r)))
    end.
  Definition my_table (q : qid) : res table := get_table (map_res my_column (column_rows q)) (my_foreign_rows q) (my_description q) q.
  (** [get_namespace_flat], formation/discovery.py:384-427, with [get_qualified_id], dialect/mysql/discovery.py:56-60;
      [names]: the answer to the query for the names of tables; see Flat.v *)
  Definition my_namespace (ids : list qid) : res namespace :=
    match ids with
    | [] => Ok (Ns "" [] [] [])
    | _ => do ts <- map_res my_table ids; Ok (Ns "" [] [] (od_make t_key ts))
    end.

  (** ** SQL Server, dialect/mssql/discovery.py *)
  (** formation/discovery.py:209-226 *)
  Definition ms_column (r : icol) : res column :=
    do t <- mssql_discover (ic_data r) (ic_chars r) (ic_prec r) (ic_scale r) (ic_frac r);
    Ok (Col (ic_name r) t (nullable r) (ic_default r) false None).
  (** [table_id.scope_id or 'dbo'] *)
  Definition or_dbo (q : qid) : string := match scope_id q with Some ""%string | None => "dbo"%string | Some s => s end.
  Definition q_sys (q : qid) : list scol :=
    from c of sys_columns I; where_ equals (sc_schema c) (quote (or_dbo q)) && equals (sc_table c) (quote (local_id q)); [c].
  (** 42-49 *)
  Definition identity_columns (q : qid) : list string :=
    order ("identity " ++ local_id q)%string (from c of q_sys q; where_ sc_identity c; [sc_name c]).
  (** 50-57 *)
  Definition default_columns (q : qid) : list (string * string) :=
    order ("defaults " ++ local_id q)%string (from c of q_sys q; match sc_default c with Some e => [(sc_name c, e)] | None => [] end).
  (** [dict(default_columns)]: the last entry of a name counts *)
  Definition default_value (l : list (string * string)) (n : string) : option string := find_entry n (rev l).
  (** 58-66 *)
  Definition ms_complete (q : qid) (c : column) : column :=
    Col (c_name c) (c_type c) (c_nullable c)
        (match default_value (default_columns q) (c_name c) with Some e => Some e | None => c_default c end)
        (c_identity c || str_in (c_name c) (identity_columns q)) (c_desc c).
  Definition ms_columns (q : qid) : res (list column) := do cs <- map_res ms_column (column_rows q); Ok (map (ms_complete q) cs).
  Definition ms_table (q : qid) : res table := get_table (ms_columns q) (foreign_rows q) (Ok None) q.
  (** [_get_namespace], 74-105; SCHEMA_ID() without argument is that of the current schema *)
  Definition q_ms_names (ns : option string) : list string :=
    from t of sys_tables I; where_ match ns with Some s => equals (st_schema t) (quote s) | None => String.eqb (st_schema t) current end && negb (st_shipped t); [st_name t].
  Definition ms_namespace (ns : option string) : res namespace :=
    match order "tables"%string (q_ms_names ns) with
    | [] => Ok (Ns "" [] [] [])
    | names => do ts <- map_res (fun n => ms_table (Qualified ns n)) names;
               Ok (Ns (match ns with Some s => s | None => "" end) [] [] (od_make t_key ts))
    end.
End Ansi.
