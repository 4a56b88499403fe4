(** Model of string/identifier quoting.  Sources are cited per definition. *)
From Verif Require Import PyStr.
Open Scope string_scope.

(** pysqlsync/model/data_types.py:20-23 [quote] *)
Definition quote (s : string) : string := "'" ++ replace1 QT "''" s ++ "'".

(** pysqlsync/model/id_types.py:8-9 [quote_id] *)
Definition quote_id (s : string) : string := replace1 DQ (String DQ (str1 DQ)) s.

Definition in_dq (s : string) : string := str1 DQ ++ s ++ str1 DQ.

(** pysqlsync/model/id_types.py:80-97 [LocalId.quoted_id] *)
Definition local_quoted (id : string) : string := in_dq (quote_id id).

(** Qualified identifiers: pysqlsync/model/id_types.py:100-207.
    [Qualified] is [QualifiedId], [Prefixed] is [PrefixedId], [Global] is [GlobalId]. *)
Inductive qid : Type :=
| Qualified (ns : option string) (id : string)
| Prefixed (ns : option string) (id : string)
| Global (id : string).

(** [scope_id]: id_types.py:105-107, 144-146, 187-189 *)
Definition scope_id (q : qid) : option string :=
  match q with Qualified ns _ => ns | Prefixed _ _ => None | Global _ => None end.

(** [local_id]: id_types.py:109-111, 148-150, 191-193 *)
Definition local_id (q : qid) : string :=
  match q with
  | Qualified _ id => id
  | Prefixed (Some ns) id => ns ++ "__" ++ id
  | Prefixed None id => id
  | Global id => id
  end.

(** [compact_id]: id_types.py:113-115, 152-157, 195-197 *)
Definition compact_id (q : qid) : string :=
  match q with
  | Qualified (Some ns) id => ns ++ "." ++ id
  | Qualified None id => id
  | Prefixed _ _ => local_id q
  | Global id => id
  end.

(** [quoted_id]: id_types.py:117-128, 159-172, 199-201 *)
Definition quoted_id (q : qid) : string :=
  match q with
  | Qualified (Some ns) id =>
      str1 DQ ++ quote_id ns ++ str1 DQ ++ "." ++ str1 DQ ++ quote_id id ++ str1 DQ
  | Qualified None id => str1 DQ ++ quote_id id ++ str1 DQ
  | Prefixed (Some ns) id => str1 DQ ++ quote_id ns ++ "__" ++ quote_id id ++ str1 DQ
  | Prefixed None id => str1 DQ ++ quote_id id ++ str1 DQ
  | Global id => id
  end.

(** [rename]: id_types.py:130-131, 174-175, 203-204 *)
Definition rename_qid (q : qid) (id : string) : qid :=
  match q with
  | Qualified ns _ => Qualified ns id
  | Prefixed ns _ => Prefixed ns id
  | Global _ => Global id
  end.

(** pysqlsync/dialect/mysql/connection.py:23-24 [quoted_id] *)
Definition mysql_quoted_id (id : string) : string :=
  str1 BQ ++ replace1 BQ (String BQ (str1 BQ)) id ++ str1 BQ.

(** pysqlsync/model/data_types.py:57-65 [escape_like]; [e] is the one-character escape string *)
Definition escape_like (v : string) (e : ascii) : string :=
  replace1 "%" (String e "%")
    (replace1 "_" (String e "_")
       (replace1 e (String e (str1 e))
          (replace1 QT "''" v))).

(** The literal of the discovery query, pysqlsync/formation/discovery.py:397 and
    pysqlsync/dialect/mysql/connection.py:126, pysqlsync/dialect/oracle/connection.py:148 *)
Definition like_literal (ns : string) : string := "'" ++ escape_like ns "~" ++ "~_~_%'".

(** pysqlsync/dialect/postgresql/object_types.py:13-32 [sql_quoted_string] *)
Definition pg_table (c : ascii) : string :=
  if Ascii.eqb c BS then "\\"
  else if Ascii.eqb c QT then "\'"
  else if Ascii.eqb c BEL then "\b"
  else if Ascii.eqb c FF then "\f"
  else if Ascii.eqb c LF then "\n"
  else if Ascii.eqb c CR then "\r"
  else if Ascii.eqb c TAB then "\t"
  else str1 c.
Definition pg_quoted_string (text : string) : string :=
  if any_char (in_class [BEL; FF; LF; CR; TAB]) text
  then "E'" ++ translate pg_table text ++ "'"
  else "'" ++ replace1 QT "''" text ++ "'".

(** pysqlsync/dialect/delta/object_types.py:7-25 [sql_quoted_string] *)
Definition delta_table (c : ascii) : string :=
  if Ascii.eqb c BS then "\\"
  else if Ascii.eqb c QT then "\'"
  else if Ascii.eqb c DQ then String BS (str1 DQ)
  else if Ascii.eqb c NUL then "\0"
  else if Ascii.eqb c BEL then "\b"
  else if Ascii.eqb c LF then "\n"
  else if Ascii.eqb c CR then "\r"
  else if Ascii.eqb c TAB then "\t"
  else if Ascii.eqb c SUB then "\Z"
  else str1 c.
Definition delta_quoted_string (text : string) : string :=
  "'" ++ (if any_char (in_class [BS; QT; DQ; NUL; BEL; LF; CR; TAB; SUB]) text
          then translate delta_table text else text) ++ "'".

(** pysqlsync/dialect/snowflake/object_types.py:8-28 [sql_quoted_string] *)
Definition snow_table (c : ascii) : string :=
  if Ascii.eqb c BS then "\\"
  else if Ascii.eqb c QT then "\'"
  else if Ascii.eqb c DQ then String BS (str1 DQ)
  else if Ascii.eqb c NUL then "\0"
  else if Ascii.eqb c BEL then "\b"
  else if Ascii.eqb c FF then "\f"
  else if Ascii.eqb c LF then "\n"
  else if Ascii.eqb c CR then "\r"
  else if Ascii.eqb c TAB then "\t"
  else str1 c.
Definition snow_quoted_string (text : string) : string :=
  "'" ++ (if any_char (in_class [BS; NUL; BEL; FF; LF; CR; TAB]) text
          then translate snow_table text
          else if has_char QT text then replace1 QT "''" text else text) ++ "'".

(** Constants: pysqlsync/model/data_types.py:26-54 [constant].
    [PTuple] also stands for a data-class instance (same rendering, lines 43-50);
    [POther] is any value of a type the function does not know.  Not modelled:
    float, Decimal (text produced by the Python runtime) and datetime (ISO text
    inside [quote]). *)
Inductive pyval : Type :=
| PStr (s : string)
| PBool (b : bool)
| PInt (z : Z)
| PTuple (l : list pyval)
| POther.

Fixpoint constant (v : pyval) : res string :=
  match v with
  | PStr s => Ok (quote s)
  | PBool b => Ok (if b then "TRUE" else "FALSE")
  | PInt z => Ok (z_to_str z)
  | PTuple l =>
      let fix go (l : list pyval) : res (list string) :=
        match l with
        | [] => Ok []
        | x :: r => do a <- constant x; do b <- go r; Ok (a :: b)
        end in
      do vs <- go l; Ok ("(" ++ join_str ", " vs ++ ")")
  | POther => Err "NotImplementedError"
  end.

(** pysqlsync/model/data_types.py:308-314 [SqlEnumType.__str__] *)
Definition enum_type_str (values : list string) : string :=
  "ENUM (" ++ join_str ", " (map quote values) ++ ")".

(** pysqlsync/formation/object_types.py:100-102 [EnumType.create_stmt]
    ([constant] of a string is [quote]) *)
Definition enum_create_text (name : qid) (values : list string) : string :=
  "CREATE TYPE " ++ quoted_id name ++ " AS ENUM (" ++ join_str ", " (map quote values) ++ ");".

(** pysqlsync/dialect/mssql/object_types.py:80-85 [MSSQLNamespace.create_schema_stmt] *)
Definition mssql_create_schema (name : string) : option string :=
  match name with
  | "" => None
  | _ => Some ("IF NOT EXISTS ( SELECT * FROM sys.schemas WHERE name = N" ++ quote name
               ++ " ) EXEC('CREATE SCHEMA " ++ local_quoted name ++ "');")
  end.

(** pysqlsync/dialect/mysql/discovery.py:62-67 and pysqlsync/dialect/oracle/discovery.py:81-86
    [split_composite_id]: split at the first occurrence of a double underscore *)
Fixpoint split_first (s : string) : option (string * string) :=
  match s with
  | "" => None
  | String c r =>
      match drop_prefix "__" s with
      | Some tl => Some ("", tl)
      | None => match split_first r with
                | Some (a, b) => Some (String c a, b)
                | None => None
                end
      end
  end.
Definition split_composite_id (name : string) : option string * string :=
  match split_first name with
  | Some (ns, id) => (Some ns, id)
  | None => (None, name)
  end.
