(** Model of the statements that create and drop objects: pysqlsync/formation/object_types.py and the
    object classes of the dialects. *)
From Verif Require Import PyStr QuoteModel ObjectDict Types Objects SqlAst.
Open Scope string_scope.
Open Scope list_scope.

(** The object factories and mutators of the engines.  [DBase]: ObjectFactory and Mutator as they are
    (dialect/trino/generator.py:14-27); [DPg]: PostgreSQL and Redshift (dialect/redshift/generator.py:31-36). *)
Inductive dialect : Type := DBase | DPg | DMySQL | DMSSQL | DOracle | DDelta | DSnow.

(** substring up to the first newline: dialect/mysql/object_types.py:21-25, 56-60 *)
Fixpoint first_line (s : string) : string :=
  match s with
  | "" => ""
  | String c r => if Ascii.eqb c LF then "" else String c (first_line r)
  end%string.

(** dialect/mssql/object_types.py:16-21 [default_constraint_name] *)
Definition df_name (col : string) : string := "df_" ++ col.

(** The pattern of dialect/oracle/object_types.py:13-18 and dialect/snowflake/object_types.py:52-57:
    [^'\d{4}-\d{2}-\d{2} \d{2}:\d{2}:\d{2}'$].  Simplifications: ASCII digits only, and [$] does not
    match before a trailing newline. *)
Fixpoint match_shape (shape s : string) : bool :=
  match shape, s with
  | "", "" => true
  | String a p, String b r =>
      (if Ascii.eqb a "d" then is_digit b else Ascii.eqb a b) && match_shape p r
  | _, _ => false
  end%string.
Definition timestamp_literal (s : string) : bool := match_shape "'dddd-dd-dd dd:dd:dd'" s.
Definition default_expr (d : dialect) (t : sqltype) (e : string) : string :=
  match d with
  | DOracle | DSnow => if is_timestamp t && timestamp_literal e then "TIMESTAMP " ++ e else e
  | _ => e
  end%string.

(** MySQL column comment, dialect/mysql/object_types.py:53-70 ([len] counts bytes here) *)
Definition mysql_comment (desc : option string) : res (option string) :=
  match desc with
  | None => Ok None
  | Some s => if Nat.ltb 1024 (String.length (first_line s)) then Err "FormationError"
              else Ok (Some (first_line s))
  end.

(** [data_spec] / [column_spec]: object_types.py:205-215; mysql/object_types.py:39-51;
    mssql/object_types.py:23-34; oracle/object_types.py:22-27; delta/object_types.py:46-55;
    snowflake/object_types.py:60-66.  Rendering the type may raise. *)
Definition column_def (d : dialect) (c : column) : res coldef :=
  do _ <- type_str (c_type c);
  let strict := negb (c_nullable c) && negb (c_identity c) in
  let loose := negb (c_nullable c) in
  let dflt := match c_default c with
              | Some e => Some (None, default_expr d (c_type c) e) | None => None end in
  match d with
  | DBase | DPg | DOracle => Ok (CD (c_name c) (c_type c) strict dflt (c_identity c) None)
  | DMySQL => do cm <- mysql_comment (c_desc c);
              Ok (CD (c_name c) (c_type c) loose dflt (c_identity c) cm)
  | DMSSQL => Ok (CD (c_name c) (c_type c) loose
                    (match c_default c with Some e => Some (Some (df_name (c_name c)), e) | None => None end)
                    (c_identity c) None)
  | DDelta => Ok (CD (c_name c) (c_type c) strict None (c_identity c) (c_desc c))
  | DSnow => Ok (CD (c_name c) (c_type c) strict dflt (c_identity c) (c_desc c))
  end.

(** [Column.create_stmt], object_types.py:217-220; mssql/object_types.py:36-38 (same meaning) *)
Definition create_column (d : dialect) (c : column) : res action :=
  do cd <- column_def d c; Ok (AAddColumn cd).

(** [Column.drop_stmt], object_types.py:222-225; mssql/object_types.py:40-46 *)
Definition drop_column (d : dialect) (c : column) : action :=
  match d, c_default c with
  | DMSSQL, Some _ => ADropDefaultColumn (df_name (c_name c)) (c_name c)
  | _, _ => ADropColumn (c_name c)
  end.

(** [Column.soft_drop_stmt] via [rename_stmt], object_types.py:227-230, 237-238;
    MySQL: mysql/object_types.py:72-73 (CHANGE with the source definition) *)
Definition soft_drop_column (d : dialect) (c : column) : res action :=
  match d with
  | DMySQL => do cd <- column_def d c;
              Ok (AChangeColumn (c_name c)
                    (CD (deleted (c_name c)) (cd_type cd) (cd_notnull cd) (cd_default cd) (cd_identity cd) (cd_comment cd)))
  | _ => Ok (ARenameColumn (c_name c) (deleted (c_name c)))
  end.

(** [Column.hard_drop_stmt], object_types.py:232-235 *)
Definition hard_drop_column (c : column) : action := ADropColumn (deleted (c_name c)).

(** [Table.alter_table_stmt], object_types.py:555-556: one statement with all actions;
    SQL Server and Oracle: one statement per action (mssql/object_types.py:50-53,
    oracle/object_types.py:31-34) *)
Definition alter_table (d : dialect) (q : qid) (acts : list action) : list stmt :=
  match d with
  | DMSSQL | DOracle => map (fun a => SAlterTable q [a]) acts
  | _ => [SAlterTable q acts]
  end.

(** [primary_key_constraint_id], object_types.py:403-405; postgresql/object_types.py:51-53;
    delta/object_types.py:41-43; snowflake/object_types.py:43-45 *)
Definition pk_name (d : dialect) (q : qid) : string :=
  ("pk_" ++ replace1 "." "_" (match d with DPg | DDelta | DSnow => local_id q | _ => compact_id q end))%string.

(** non-empty description ([if self.description]) *)
Definition truthy (o : option string) : option string :=
  match o with Some "" => None | _ => o end%string.
(** description in CREATE TABLE: mysql/object_types.py:16-25, 35-39; delta/object_types.py:34-38;
    snowflake/object_types.py:36-40 *)
Definition inline_table_comment (d : dialect) (t : table) : option string :=
  match d with
  | DMySQL => truthy (match t_desc t with Some s => Some (first_line s) | None => None end)
  | DDelta | DSnow => truthy (t_desc t)
  | _ => None
  end.

(** COMMENT statements after CREATE TABLE, postgresql/object_types.py:36-49 *)
Definition create_comments (d : dialect) (t : table) : list stmt :=
  match d with
  | DPg => match t_desc t with Some s => [SCommentTable (t_name t) (Some s)] | None => [] end
           ++ flat_map (fun c => match c_desc c with
                                 | Some s => [SCommentColumn (t_name t) (c_name c) (Some s)]
                                 | None => [] end) (t_columns t)
  | _ => []
  end.

(** INSERT of an [EnumTable], object_types.py:606-622 (each value must be renderable) *)
Definition enum_insert (t : table) : res (list stmt) :=
  match t_enum t with
  | None => Ok []
  | Some vs => do cs <- get_value_columns t None;
               do _ <- map_res constant vs;
               Ok [SInsert (t_name t) (map c_name cs) vs NoClause]
  end.

(** [Table.create_stmt], object_types.py:547-553, with the dialect overrides and [EnumTable] *)
Definition create_table (d : dialect) (t : table) : res (list stmt) :=
  do cols <- map_res (column_def d) (t_columns t);
  do ins <- enum_insert t;
  Ok (SCreateTable (t_name t) cols (pk_name d (t_name t)) (t_pk t) (inline_table_comment d t)
        :: create_comments d t ++ ins).

(** [add_constraints_stmt], object_types.py:558-564; mssql/object_types.py:55-63: one statement *)
Definition add_constraints (d : dialect) (t : table) : list stmt :=
  match table_constraints t with
  | [] => []
  | ks => match d with
          | DMSSQL => [SAlterTable (t_name t) (map AAddConstraint ks)]
          | _ => alter_table d (t_name t) (map AAddConstraint ks)
          end
  end.

(** [drop_constraints_stmt], object_types.py:566-577; mssql/object_types.py:65-74: one statement
    (not overridden for Oracle) *)
Definition drop_constraints (t : table) : list stmt :=
  match table_constraints t with
  | [] => []
  | ks => [SAlterTable (t_name t) (map (fun k => ADropConstraint (k_name k)) ks)]
  end.

(** [EnumType.create_stmt], object_types.py:100-102 *)
Definition create_enum (e : enumt) : stmt := SCreateEnum (e_name e) (e_values e).
(** [EnumType.drop_stmt], [soft_drop_stmt], [hard_drop_stmt], object_types.py:104-118 *)
Definition drop_enum (e : enumt) : stmt := SDropType (e_name e).
Definition soft_drop_enum (e : enumt) : stmt := SRenameType (e_name e) (deleted (local_id (e_name e))).
Definition hard_drop_enum (e : enumt) : stmt :=
  SDropType (rename_qid (e_name e) (deleted (local_id (e_name e)))).

(** [StructType.create_stmt], object_types.py:172-174; postgresql/object_types.py:60-75.
    Simplification: the COMMENT ON COLUMN statements for members are not modelled. *)
Definition create_struct (d : dialect) (s : structt) : res (list stmt) :=
  do ms <- map_res (fun m => do _ <- type_str (m_type m); Ok (m_name m, m_type m)) (s_members s);
  Ok (SCreateStruct (s_name s) ms ::
      match d, s_desc s with DPg, Some c => [SCommentType (s_name s) (Some c)] | _, _ => [] end).
Definition drop_struct (s : structt) : stmt := SDropType (s_name s).
Definition drop_table (t : table) : stmt := SDropTable (t_name t).

(** [create_schema_stmt], [drop_schema_stmt], object_types.py:690-700; postgresql/object_types.py:78-90;
    delta/object_types.py:66-78; mssql/object_types.py:80-87 *)
Definition create_schema (d : dialect) (n : namespace) : list stmt :=
  match n_name n with
  | "" => []
  | s => [SCreateSchema (match d with DPg | DDelta | DMSSQL => true | _ => false end) s]
  end%string.
Definition drop_schema (d : dialect) (n : namespace) : list stmt :=
  match n_name n with
  | "" => []
  | s => [SDropSchema (match d with DPg | DDelta => true | _ => false end) s]
  end%string.

(** [Namespace.create_objects_stmt], object_types.py:708-713 *)
Definition concat_res {A B} (f : A -> res (list B)) (l : list A) : res (list B) :=
  do xs <- map_res f l; Ok (concat xs).
Definition create_objects (d : dialect) (n : namespace) : res (list stmt) :=
  do ss <- concat_res (create_struct d) (n_structs n);
  do ts <- concat_res (create_table d) (n_tables n);
  Ok (map create_enum (n_enums n) ++ ss ++ ts).

(** [Namespace.drop_objects_stmt], object_types.py:715-720 *)
Definition drop_objects (n : namespace) : list stmt :=
  map drop_table (rev (n_tables n)) ++ map drop_struct (rev (n_structs n))
  ++ map drop_enum (rev (n_enums n)).

(** [Namespace.add_constraints_stmt], [drop_constraints_stmt], object_types.py:722-730 *)
Definition ns_add_constraints (d : dialect) (n : namespace) : list stmt := flat_map (add_constraints d) (n_tables n).
Definition ns_drop_constraints (n : namespace) : list stmt := flat_map drop_constraints (n_tables n).

(** [Catalog.create_stmt], [add_constraints_stmt], [drop_stmt], object_types.py:819-838.
    [sort] reorders the catalog in place; the sorted catalog is returned as well. *)
Definition cat_create (d : dialect) (c : catalog) : res (catalog * list stmt) :=
  do c' <- cat_sort c;
  do os <- concat_res (create_objects d) c';
  Ok (c', flat_map (create_schema d) c' ++ os).
Definition cat_add_constraints (d : dialect) (c : catalog) : list stmt := flat_map (ns_add_constraints d) c.
Definition cat_drop (d : dialect) (c : catalog) : res (catalog * list stmt) :=
  do c' <- cat_sort c;
  Ok (c', flat_map drop_objects (rev c') ++ flat_map (drop_schema d) (rev c')).
Definition cat_drop_constraints (c : catalog) : list stmt := flat_map ns_drop_constraints c.
