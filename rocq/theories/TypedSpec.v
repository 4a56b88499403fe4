(** Specification: which values a declared parameter type carries.  SQL Server: ODBC Programmer's Reference, appendix D (types, column size,
    decimal digits) and pyodbc's [setinputsizes], where size 0 of a character or binary type means no limit; [SQL_TINYINT] is unsigned on SQL
    Server.  Oracle: python-oracledb, [Cursor.var]: a size counts characters of strings, bytes of raw data. *)
From Verif Require Import PyStr Types Objects Capacity Typed.
From Coq Require Import List ZArith.
Open Scope Z_scope.

Definition int_range (i : input) : option (Z * Z) :=
  match i with
  | ByOdbc SQL_TINYINT _ _ => Some (0, 255)
  | ByOdbc SQL_SMALLINT _ _ => Some (- 2 ^ 15, 2 ^ 15 - 1)
  | ByOdbc SQL_INTEGER _ _ => Some (- 2 ^ 31, 2 ^ 31 - 1)
  | ByOdbc SQL_BIGINT _ _ => Some (- 2 ^ 63, 2 ^ 63 - 1)
  | ByOracle (OraInteger _) => Some (- 2 ^ 31, 2 ^ 31 - 1)
  | ByOracle OraNumber => Some (- (10 ^ 38 - 1), 10 ^ 38 - 1)
  | _ => None
  end.
Definition carries_int (i : input) (z : Z) : Prop := match int_range i with Some (a, b) => a <= z <= b | None => False end.
Definition carries_text (i : input) (t : text) : Prop :=
  match i with
  | ByOdbc SQL_CHAR n _ | ByOdbc SQL_VARCHAR n _ => n = 0 \/ size t <= n
  | ByOracle (OraChar n) | ByOracle (OraString n) => chars t <= n
  | ByOracle OraClob => chars t <= 2 ^ 32 - 1
  | _ => False
  end.
Definition carries_bytes (i : input) (m : Z) : Prop :=
  match i with
  | ByOdbc SQL_BINARY n _ | ByOdbc SQL_VARBINARY n _ => n = 0 \/ m <= n
  | ByOracle (OraRaw n) => m <= n
  | ByOracle OraBlob => m <= 2 ^ 32 - 1
  | _ => False
  end.
(** a decimal number [z / 10^s]; for [SQL_DECIMAL], the size is the number of digits, of which [digits] are decimals *)
Definition carries_decimal (i : input) (z s : Z) : Prop :=
  match i with
  | ByOdbc SQL_DECIMAL p g => s <= g /\ Z.abs z * 10 ^ (g - s) < 10 ^ p
  | ByOracle OraNumber => Z.abs z < 10 ^ 38
  | _ => False
  end.
(** a time with so many digits of fractions of a second *)
Definition carries_fraction (i : input) (n : Z) : Prop :=
  match i with
  | ByOdbc SQL_TIMESTAMP _ g | ByOdbc SQL_TIME _ g => n <= g
  | ByOracle OraTimestampVar | ByOracle OraInterval => n <= 9
  | _ => False
  end.

(** other kinds of values, the columns that are for them, and the declarations that pass them unchanged (fractions of seconds apart) *)
Inductive kind : Type := Truth | Day | Moment | Clock | SingleFloat | DoubleFloat.
Inductive kind_of (d : Ddl.dialect) : sqltype -> kind -> Prop :=
| k_bit t : d = Ddl.DMSSQL -> kind_of d (TSub MsBool t) Truth
| k_bool : d = Ddl.DOracle -> kind_of d TBool Truth
| k_date : kind_of d TDate Day
| k_timestamp p z : kind_of d (TTimestamp p z) Moment
| k_time p z : kind_of d (TTime p z) Clock
| k_real : kind_of d TReal SingleFloat
| k_double : kind_of d TDouble DoubleFloat
| k_sub c t k : c <> MsBool -> kind_of d t k -> kind_of d (TSub c t) k.
Definition carries_kind (i : input) (k : kind) : Prop :=
  match k, i with
  | Truth, (ByOdbc SQL_BIT _ _ | ByOracle OraBool)
  | Day, (ByOdbc (SQL_DATE | SQL_TIMESTAMP) _ _ | ByOracle (OraDate | OraTimestampVar))
  | Moment, (ByOdbc SQL_TIMESTAMP _ _ | ByOracle OraTimestampVar)
  | Clock, (ByOdbc SQL_TIME _ _ | ByOracle OraInterval)
  | SingleFloat, (ByOdbc (SQL_REAL | SQL_DOUBLE) _ _ | ByOracle (OraFloat | OraDouble))
  | DoubleFloat, (ByOdbc SQL_DOUBLE _ _ | ByOracle OraDouble) => True
  | _, _ => False
  end.

(** Parameter n of the statement, the value for the n-th column, is declared with the type of that column; and no other
    parameter is declared. *)
Definition declared (d : Ddl.dialect) (t : table) (cols : list string) (params : list nat) (inputs : list input) : Prop :=
  length inputs = length params /\
  forall n c p, nth_error cols n = Some c -> nth_error params n = Some p ->
    (1 <= p)%nat /\ exists k i, In k (t_columns t) /\ c_name k = c /\ nth_error inputs (p - 1) = Some i /\ input_of d (c_type k) = Some i.
