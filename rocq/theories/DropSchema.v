(** Model of [drop_schema] and [drop_table_if_exists]: base.py:951-956, 978-985; dialect/mssql/connection.py:134-165;
    dialect/mysql/connection.py:118-130; dialect/oracle/connection.py:144-159.  A program asks the server for names and
    executes commands that depend on the answers. *)
From Verif Require Import PyStr QuoteModel Ddl.
Open Scope string_scope.

(** commands that are written for the names that a query returned *)
Inductive cmd : Type :=
| DropKey (t : qid) (c : string)            (* ALTER TABLE t DROP CONSTRAINT c; *)
| DropTables (l : list qid)                 (* DROP TABLE IF EXISTS a, b, c; *)
| DropTableCascade (t : qid)                (* DROP TABLE t CASCADE CONSTRAINTS PURGE; *)
| DropSchemaIfExists (cascade : bool) (n : string)
| DropSchemaPlain (n : string).
(** queries, by the literal that they contain *)
Inductive query : Type :=
| ForeignKeysOf (lit : string)              (* table_constraints: constraint_type = 'FOREIGN KEY' AND table_schema = lit *)
| TablesOf (lit : string)                   (* tables: table_schema = lit *)
| TablesLike (lit : string).                (* tables of the current database or user: table_name LIKE lit ESCAPE '~' *)
Inductive prog : Type :=
| Done
| AskPairs (q : query) (k : list (string * string) -> prog)
| AskNames (q : query) (k : list string -> prog)
| Execute (l : list cmd) (k : prog).

(** base.py:951-956, formation/object_types.py:697-701, dialect/postgresql/object_types.py:85-89,
    dialect/delta/object_types.py:73-77: nothing is executed for the empty name *)
Definition base_drop_schema (d : dialect) (ns : string) : prog :=
  match ns with
  | "" => Done
  | _ => Execute [match d with DPg | DDelta => DropSchemaIfExists true ns | _ => DropSchemaPlain ns end] Done
  end.
(** dialect/mssql/connection.py:134-165 *)
Definition mssql_drop_schema (ns : string) : prog :=
  AskPairs (ForeignKeysOf (quote ns)) (fun cs =>
  let rest := AskNames (TablesOf (quote ns)) (fun ts =>
                let last := Execute [DropSchemaIfExists false ns] Done in
                match ts with [] => last | _ => Execute [DropTables (map (fun t => Qualified (Some ns) t) ts)] last end) in
  match cs with [] => rest | _ => Execute (map (fun p => DropKey (Qualified (Some ns) (fst p)) (snd p)) cs) rest end).
(** dialect/mysql/connection.py:118-130; the names are written as they are *)
Definition mysql_drop_schema (ns : string) : prog :=
  AskNames (TablesLike (like_literal ns)) (fun ts =>
  match ts with [] => Done | _ => Execute [DropTables (map (Prefixed None) ts)] Done end).
(** dialect/oracle/connection.py:144-159 *)
Definition oracle_drop_schema (ns : string) : prog :=
  AskNames (TablesLike (like_literal ns)) (fun ts =>
  match ts with [] => Done | _ => Execute (map (fun t => DropTableCascade (Prefixed None t)) ts) Done end).
Definition conn_drop_schema (d : dialect) (ns : string) : prog :=
  match d with
  | DMSSQL => mssql_drop_schema ns
  | DMySQL => mysql_drop_schema ns
  | DOracle => oracle_drop_schema ns
  | _ => base_drop_schema d ns
  end.

(** the text of the commands.  MySQL writes names in backquotes (mysql/connection.py:23-24) *)
Definition drop_text (d : dialect) (c : cmd) : string :=
  match c with
  | DropKey t n => "ALTER TABLE " ++ quoted_id t ++ " DROP CONSTRAINT " ++ local_quoted n ++ ";"
  | DropTables l => "DROP TABLE IF EXISTS " ++
      join_str ", " (map (fun t => match d with DMySQL => mysql_quoted_id (local_id t) | _ => quoted_id t end) l) ++ ";"
  | DropTableCascade t => "DROP TABLE " ++ local_quoted (local_id t) ++ " CASCADE CONSTRAINTS PURGE;"
  | DropSchemaIfExists cascade n => "DROP SCHEMA IF EXISTS " ++ local_quoted n ++ (if cascade then " CASCADE;" else ";")
  | DropSchemaPlain n => "DROP SCHEMA " ++ local_quoted n ++ ";"
  end.
Definition script_text (d : dialect) (l : list cmd) : string := join_str NL (map (drop_text d) l).

(** [drop_table_if_exists]: base.py:978-985, formation/object_types.py:554-555, dialect/oracle/object_types.py:37-43 *)
Definition table_if_exists_text (d : dialect) (t : qid) : string :=
  match d with
  | DOracle => "BEGIN" ++ NL ++ "    EXECUTE IMMEDIATE 'DROP TABLE " ++ quoted_id t ++ " CASCADE CONSTRAINTS PURGE';" ++ NL
               ++ "EXCEPTION WHEN OTHERS THEN IF SQLCODE != -942 THEN RAISE; END IF;" ++ NL ++ "END;"
  | _ => "DROP TABLE IF EXISTS " ++ quoted_id t ++ ";"
  end.
