(** The parameter types that SQL Server's and Oracle's drivers are told before records are sent. *)
From Verif Require Import PyStr QuoteModel ObjectDict Types Objects Ddl Dml.
From Coq Require Import List ZArith.
Open Scope Z_scope.

(** ODBC type identifiers, dialect/mssql/data_types.py:63-109 *)
Inductive odbc : Type :=
| SQL_BIT | SQL_TINYINT | SQL_SMALLINT | SQL_INTEGER | SQL_BIGINT | SQL_REAL | SQL_DOUBLE | SQL_FLOAT | SQL_DECIMAL
| SQL_TIMESTAMP | SQL_DATE | SQL_TIME | SQL_CHAR | SQL_VARCHAR | SQL_BINARY | SQL_VARBINARY | SQL_UNKNOWN.
(** Variables of python-oracledb, dialect/oracle/data_types.py:64-104 *)
Inductive oravar : Type :=
| OraBool | OraFloat | OraDouble | OraNumber | OraInteger (w : Z) | OraRaw (n : Z) | OraBlob | OraChar (n : Z) | OraString (n : Z) | OraClob
| OraDate | OraInterval | OraTimestampVar | OraUnknown.
Inductive input : Type := ByOdbc (k : odbc) (size digits : Z) | ByOracle (v : oravar).

(** [x or n] *)
Definition or_else (x : option Z) (n : Z) : Z := match x with Some 0 | None => n | Some z => z end.
Fixpoint ms_bool (t : sqltype) : bool := match t with TSub MsBool _ => true | TSub _ u => ms_bool u | _ => false end.
(** [sql_to_odbc_type], dialect/mssql/data_types.py:63-109 *)
Definition odbc_type (t : sqltype) : odbc * Z * Z :=
  if ms_bool t then (SQL_BIT, 0, 0)
  else match base_type t with
       | TInt w _ _ _ => (if w =? 1 then SQL_TINYINT else if w =? 2 then SQL_SMALLINT else if w =? 4 then SQL_INTEGER else SQL_BIGINT, 0, 0)
       | TReal => (SQL_REAL, 0, 0)
       | TDouble => (SQL_DOUBLE, 0, 0)
       | TFloat p => (SQL_FLOAT, or_else p 53, 0)
       | TDecimal p s => (SQL_DECIMAL, or_else p 15, or_else s 0)
       | TTimestamp p _ => (SQL_TIMESTAMP, or_else p 6, 0)
       | TDate => (SQL_DATE, 0, 0)
       | TTime p _ => (SQL_TIME, or_else p 6, 0)
       | TFixChar l => (SQL_CHAR, or_else l 0, 0)
       | TVarChar l => (SQL_VARCHAR, or_else l 0, 0)
       | TFixBin l => (SQL_BINARY, or_else l 0, 0)
       | TVarBin l => (SQL_VARBINARY, or_else l 0, 0)
       | _ => (SQL_UNKNOWN, 0, 0)
       end.
(** [sql_to_oracle_type], dialect/oracle/data_types.py:64-104 *)
Definition oracle_var (t : sqltype) : oravar :=
  match base_type t with
  | TBool => OraBool
  | TReal => OraFloat
  | TDouble => OraDouble
  | TInt w _ _ _ => if 4 <? w then OraNumber else OraInteger w
  | TVarBin (Some n) => OraRaw n
  | TVarBin None => OraBlob
  | TFixChar l => OraChar (match l with Some n => n | None => 4000 end)
  | TVarChar (Some n) => OraString n
  | TVarChar None => OraClob
  | TDate => OraDate
  | TTime _ _ => OraInterval
  | TDecimal _ _ => OraNumber
  | TTimestamp _ _ => OraTimestampVar
  | _ => OraUnknown
  end.
Definition input_of (d : dialect) (t : sqltype) : option input :=
  match d with
  | DMSSQL => Some (let '(k, n, g) := odbc_type t in ByOdbc k n g)
  | DOracle => Some (ByOracle (oracle_var t))
  | _ => None
  end.

(** [_execute_typed]: base.py:903-912 (types ignored), mssql/connection.py:87-121, oracle/connection.py:89-124: the statement, and
    the declared type of each parameter *)
Definition execute_typed (d : dialect) (s : dml) (t : table) (order : option (list string)) : res (dml * list input) :=
  match d with
  | DMSSQL | DOracle => do cs <- get_columns t order;
                        do l <- map_res (fun c => match input_of d (c_type c) with Some i => Ok i | None => Err "TypeError" end) cs;
                        Ok (s, l)
  | _ => Ok (s, [])
  end.
(** [tuple(name for name in field_names if name) if field_names else None], base.py:1090, 1148 *)
Definition order_of (names : option (list string)) : option (list string) :=
  match names with
  | None | Some [] => None
  | Some l => Some (filter (fun n => negb (String.eqb n "")) l)
  end.
(** what [_insert_rows], [_upsert_rows] and [_delete_rows] execute, base.py:1074-1092, 1132-1151, 1283-1304 *)
Definition insert_call (d : dialect) (t : table) (names : option (list string)) : res (dml * list input) :=
  do s <- insert_stmt t (order_of names); execute_typed d s t (order_of names).
Definition upsert_call (d : dialect) (t : table) (names : option (list string)) : res (dml * list input) :=
  do s <- upsert_stmt d t (order_of names); execute_typed d s t (order_of names).
Definition delete_call (d : dialect) (t : table) : res (dml * list input) :=
  do s <- delete_stmt t; do k <- get_primary_column t; execute_typed d s t (Some [c_name k]).
