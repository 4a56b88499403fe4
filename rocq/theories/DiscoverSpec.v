(** What the servers tell about a column that was created with a type, by the spelling of the type.  Written from the
    manuals: information_schema.columns (MySQL, SQL Server), dba_tab_columns (Oracle), pg_type and format_type (PostgreSQL).
    [None]: the server rejects the type (or it is not used by the library). *)
From Verif Require Import PyStr QuoteSpec Capacity.
From Coq Require Import ZArith.
Open Scope Z_scope.
Open Scope string_scope.

(** ** Reading a spelling: name, arguments in parentheses, what follows *)
Fixpoint skip_blanks (s : string) : string := match s with String " " r => skip_blanks r | _ => s end.
Fixpoint read_args (fuel : nat) (s : string) : option (list Z * string) :=
  match fuel with
  | O => None
  | S k => match scan_nat s with
           | Some (n, String ")" r) => Some ([Z.of_N n], r)
           | Some (n, String "," r) => match read_args k (skip_blanks r) with Some (l, r') => Some (Z.of_N n :: l, r') | None => None end
           | _ => None
           end
  end.
Definition read_type (s : string) : option (string * list Z * string) :=
  let (name, r) := upto_paren s in
  match r with
  | "" => Some (name, [], "")
  | String _ r' => match read_args 3 r' with Some (l, suffix) => Some (name, l, suffix) | None => None end
  end.

(** ** MySQL *)
Record my_report : Type := MyReport { data_type : string; column_type : string; my_chars : option Z; my_precision : option Z; my_scale : option Z; my_fraction : option Z }.
Definition my_plain (name : string) : my_report := MyReport name name None None None None.
Definition my_int (name : string) (digits : Z) : my_report := MyReport name name None (Some digits) (Some 0) None.
Definition num1 (name : string) (n : Z) : string := name ++ "(" ++ z_to_str n ++ ")".
Definition num2 (name : string) (n m : Z) : string := name ++ "(" ++ z_to_str n ++ "," ++ z_to_str m ++ ")".
Definition when (b : bool) {A} (a : A) : option A := if b then Some a else None.
Definition le_le (lo n hi : Z) : bool := ((lo <=? n)%Z && (n <=? hi)%Z)%bool.
(** values of an enumeration in the type of the column: apostrophes are doubled *)
Fixpoint double_apostrophes (s : string) : string :=
  match s with "" => "" | String c r => if Ascii.eqb c QT then String QT (String QT (double_apostrophes r)) else String c (double_apostrophes r) end.
Definition show_value (v : string) : string := String QT (double_apostrophes v ++ String QT "").
Fixpoint read_values (fuel : nat) (s : string) : option (list string) :=
  match fuel with
  | O => None
  | S k => match mysql_literal s with
           | Some (v, ")") => Some [v]
           | Some (v, String "," r) => match read_values k (skip_blanks r) with Some l => Some (v :: l) | None => None end
           | _ => None
           end
  end.
Definition mysql_report (s : string) : option my_report :=
  match drop_prefix "ENUM (" s with
  | Some r => match read_values (String.length r) r with
              | Some vs => Some (MyReport "enum" ("enum(" ++ join_str "," (map show_value vs) ++ ")") None None None None)
              | None => None
              end
  | None =>
  match read_type s with
  | Some (name, [], "") =>
      if name =? "tinyint" then Some (my_int "tinyint" 3)
      else if name =? "boolean" then Some (MyReport "tinyint" "tinyint(1)" None (Some 3) (Some 0) None)
      else if name =? "smallint" then Some (my_int "smallint" 5)
      else if name =? "integer" then Some (my_int "int" 10)
      else if name =? "bigint" then Some (my_int "bigint" 19)
      else if (name =? "real") || (name =? "double precision") then Some (MyReport "double" "double" None (Some 22) None None)
      else if name =? "decimal" then Some (MyReport "decimal" "decimal(10,0)" None (Some 10) (Some 0) None)
      else if name =? "datetime" then Some (MyReport "datetime" "datetime" None None None (Some 0))
      else if name =? "time" then Some (MyReport "time" "time" None None None (Some 0))
      else if name =? "date" then Some (my_plain "date")
      else if name =? "json" then Some (my_plain "json")
      else if name =? "char" then Some (MyReport "char" "char(1)" (Some 1) None None None)
      else if name =? "binary" then Some (MyReport "binary" "binary(1)" (Some 1) None None None)
      else if name =? "text" then Some (MyReport "text" "text" (Some 65535) None None None)
      else if name =? "mediumtext" then Some (MyReport "mediumtext" "mediumtext" (Some 16777215) None None None)
      else if name =? "longtext" then Some (MyReport "longtext" "longtext" (Some 4294967295) None None None)
      else if name =? "blob" then Some (MyReport "blob" "blob" (Some 65535) None None None)
      else if name =? "mediumblob" then Some (MyReport "mediumblob" "mediumblob" (Some 16777215) None None None)
      else if name =? "longblob" then Some (MyReport "longblob" "longblob" (Some 4294967295) None None None)
      else None
  | Some (name, [n], "") =>
      if name =? "varchar" then when (le_le 0 n 65535) (MyReport "varchar" (num1 "varchar" n) (Some n) None None None)
      else if name =? "char" then when (le_le 0 n 255) (MyReport "char" (num1 "char" n) (Some n) None None None)
      else if name =? "binary" then when (le_le 0 n 255) (MyReport "binary" (num1 "binary" n) (Some n) None None None)
      else if name =? "varbinary" then when (le_le 0 n 65535) (MyReport "varbinary" (num1 "varbinary" n) (Some n) None None None)
      else if name =? "datetime" then when (le_le 0 n 6) (MyReport "datetime" (if n =? 0 then "datetime" else num1 "datetime" n)%Z None None None (Some n))
      else if name =? "time" then when (le_le 0 n 6) (MyReport "time" (if n =? 0 then "time" else num1 "time" n)%Z None None None (Some n))
      else if name =? "decimal" then when (le_le 1 n 65) (MyReport "decimal" (num2 "decimal" n 0) None (Some n) (Some 0) None)
      else if name =? "float" then
        if (n <=? 24)%Z then Some (MyReport "float" "float" None (Some 12) None None) else when (n <=? 53)%Z (MyReport "double" "double" None (Some 22) None None)
      else None
  | Some (name, [n; m], "") =>
      if name =? "decimal" then when (le_le 1 n 65 && le_le 0 m 30 && (m <=? n)%Z)%bool (MyReport "decimal" (num2 "decimal" n m) None (Some n) (Some m) None) else None
  | _ => None
  end
  end%bool.

(** ** SQL Server *)
Record ms_report : Type := MsReport { ms_type : string; ms_chars : option Z; ms_precision : option Z; ms_scale : option Z; ms_fraction : option Z }.
Definition mssql_report (s : string) : option ms_report :=
  if s =? "varchar(max)" then Some (MsReport "varchar" (Some (-1)) None None None) else
  match read_type s with
  | Some (name, [], "") =>
      if name =? "bit" then Some (MsReport "bit" None None None None)
      else if name =? "tinyint" then Some (MsReport "tinyint" None (Some 3) (Some 0) None)
      else if name =? "smallint" then Some (MsReport "smallint" None (Some 5) (Some 0) None)
      else if name =? "integer" then Some (MsReport "int" None (Some 10) (Some 0) None)
      else if name =? "bigint" then Some (MsReport "bigint" None (Some 19) (Some 0) None)
      else if name =? "real" then Some (MsReport "real" None (Some 24) None None)
      else if name =? "double precision" then Some (MsReport "float" None (Some 53) None None)
      else if name =? "decimal" then Some (MsReport "decimal" None (Some 18) (Some 0) None)
      else if name =? "datetime2" then Some (MsReport "datetime2" None None None (Some 7))
      else if name =? "date" then Some (MsReport "date" None None None (Some 0))
      else if name =? "time" then Some (MsReport "time" None None None (Some 7))
      else if name =? "char" then Some (MsReport "char" (Some 1) None None None)
      else if name =? "binary" then Some (MsReport "binary" (Some 1) None None None)
      else if name =? "text" then Some (MsReport "text" (Some 2147483647) None None None)
      else None
  | Some (name, [n], "") =>
      if name =? "varchar" then when (le_le 1 n 8000) (MsReport "varchar" (Some n) None None None)
      else if name =? "char" then when (le_le 1 n 8000) (MsReport "char" (Some n) None None None)
      else if name =? "binary" then when (le_le 1 n 8000) (MsReport "binary" (Some n) None None None)
      else if name =? "time" then when (le_le 0 n 7) (MsReport "time" None None None (Some n))
      else if name =? "decimal" then when (le_le 1 n 38) (MsReport "decimal" None (Some n) (Some 0) None)
      else if name =? "float" then
        if (n <=? 24)%Z then when (1 <=? n)%Z (MsReport "real" None (Some 24) None None) else when (n <=? 53)%Z (MsReport "float" None (Some 53) None None)
      else None
  | Some (name, [n; m], "") =>
      if name =? "decimal" then when (le_le 1 n 38 && le_le 0 m n)%bool (MsReport "decimal" None (Some n) (Some m) None) else None
  | _ => None
  end.

(** ** Oracle: char_length is 0 unless the type is a character type; the length in bytes of a character column depends on the
    length semantics of the database, [w] bytes per character *)
Record ora_report : Type := OraReport { ora_type : string; ora_chars : Z; ora_length : Z; ora_precision : option Z; ora_scale : option Z }.
Definition oracle_report (w : Z) (s : string) : option ora_report :=
  if s =? "interval day to second" then Some (OraReport "INTERVAL DAY(2) TO SECOND(6)" 0 11 (Some 2) (Some 6)) else
  match read_type s with
  | Some (name, [], "") =>
      if name =? "number" then Some (OraReport "NUMBER" 0 22 None None)
      else if name =? "boolean" then Some (OraReport "BOOLEAN" 0 1 None None)
      else if name =? "clob" then Some (OraReport "CLOB" 0 4000 None None)
      else if name =? "blob" then Some (OraReport "BLOB" 0 4000 None None)
      else if name =? "date" then Some (OraReport "DATE" 0 7 None None)
      else if name =? "timestamp" then Some (OraReport "TIMESTAMP(6)" 0 11 None (Some 6))
      else if name =? "timestamp with time zone" then Some (OraReport "TIMESTAMP(6) WITH TIME ZONE" 0 13 None (Some 6))
      else if name =? "real" then Some (OraReport "FLOAT" 0 22 (Some 63) None)
      else if name =? "double precision" then Some (OraReport "FLOAT" 0 22 (Some 126) None)
      else if name =? "decimal" then Some (OraReport "NUMBER" 0 22 None (Some 0))
      else if name =? "char" then Some (OraReport "CHAR" 1 w None None)
      else None
  | Some (name, [n], "") =>
      if name =? "varchar2" then when (le_le 1 n 4000) (OraReport "VARCHAR2" n (w * n) None None)
      else if name =? "raw" then when (le_le 1 n 2000) (OraReport "RAW" 0 n None None)
      else if name =? "char" then when (le_le 1 n 2000) (OraReport "CHAR" n (w * n) None None)
      else if name =? "timestamp" then when (le_le 0 n 9) (OraReport (num1 "TIMESTAMP" n) 0 11 None (Some n))
      else if name =? "decimal" then when (le_le 1 n 38) (OraReport "NUMBER" 0 22 (Some n) (Some 0))
      else if name =? "float" then when (le_le 1 n 126) (OraReport "FLOAT" 0 22 (Some n) None)
      else None
  | Some (name, [n; m], "") =>
      if name =? "decimal" then when (le_le 1 n 38 && le_le (-84) m 127)%bool (OraReport "NUMBER" 0 22 (Some n) (Some m)) else None
  | _ => None
  end.

(** ** PostgreSQL: name and schema of the type, format_type, is it an array; of an array, the name of the element type *)
Record pg_report : Type := PgReport { typname : string; nspname : string; formatted : string; array : bool }.
Definition pg_builtin (s : string) : option (string * string) :=
  match read_type s with
  | Some (name, [], "") =>
      if name =? "boolean" then Some ("bool", "boolean")
      else if name =? "smallint" then Some ("int2", "smallint")
      else if name =? "integer" then Some ("int4", "integer")
      else if name =? "bigint" then Some ("int8", "bigint")
      else if name =? "real" then Some ("float4", "real")
      else if name =? "double precision" then Some ("float8", "double precision")
      else if name =? "decimal" then Some ("numeric", "numeric")
      else if name =? "text" then Some ("text", "text")
      else if name =? "char" then Some ("bpchar", "character(1)")
      else if name =? "date" then Some ("date", "date")
      else if name =? "time" then Some ("time", "time without time zone")
      else if name =? "time with time zone" then Some ("timetz", "time with time zone")
      else if name =? "timestamp" then Some ("timestamp", "timestamp without time zone")
      else if name =? "timestamp with time zone" then Some ("timestamptz", "timestamp with time zone")
      else if name =? "interval" then Some ("interval", "interval")
      else if name =? "json" then Some ("json", "json")
      else if name =? "jsonb" then Some ("jsonb", "jsonb")
      else if name =? "uuid" then Some ("uuid", "uuid")
      else if name =? "inet" then Some ("inet", "inet")
      else None
  | Some (name, [n], suffix) =>
      if (name =? "varchar") && (suffix =? "") then when (le_le 1 n 10485760) ("varchar", num1 "character varying" n)
      else if (name =? "char") && (suffix =? "") then when (le_le 1 n 10485760) ("bpchar", num1 "character" n)
      else if (name =? "timestamp") && (suffix =? "") then when (le_le 0 n 6) ("timestamp", num1 "timestamp" n ++ " without time zone")
      else if (name =? "timestamp") && (suffix =? " with time zone") then when (le_le 0 n 6) ("timestamptz", num1 "timestamp" n ++ " with time zone")
      else if (name =? "time") && (suffix =? "") then when (le_le 0 n 6) ("time", num1 "time" n ++ " without time zone")
      else if (name =? "decimal") && (suffix =? "") then when (le_le 1 n 1000) ("numeric", num2 "numeric" n 0)
      else if (name =? "float") && (suffix =? "") then
        if (n <=? 24)%Z then when (1 <=? n)%Z ("float4", "real") else when (n <=? 53)%Z ("float8", "double precision")
      else None
  | Some (name, [n; m], "") => if name =? "decimal" then when (le_le 1 n 1000 && le_le 0 m n)%bool ("numeric", num2 "numeric" n m) else None
  | _ => None
  end%bool.
(** [s] without the ending [suf] *)
Fixpoint cut_suffix (suf s : string) : option string :=
  if s =? suf then Some ""
  else match s with "" => None | String c r => match cut_suffix suf r with Some t => Some (String c t) | None => None end end.
(** [show]: how a type of a schema is shown by format_type, which depends on the search path *)
Definition pg_report_of (show : option string -> string -> string) (s : string) : option pg_report :=
  let (el, arr) := match cut_suffix " ARRAY" s with Some el => (el, true) | None => (s, false) end in
  match sql_qualified el with
  | Some (Some ns, name, "") => Some (PgReport name ns (show (Some ns) name ++ (if arr then "[]" else "")) arr)
  | _ => match pg_builtin el with
         | Some (name, fmt) => Some (PgReport name "pg_catalog" (fmt ++ (if arr then "[]" else "")) arr)
         | None => None
         end
  end.
(** an identifier is shown in quotes unless it consists of lower-case letters, digits and underscores *)
Definition show_ok (show : option string -> string -> string) : Prop :=
  forall ns name, (exists r, show ns name = String DQ r) \/ any_char (Ascii.eqb "(") (show ns name) = false \/ exists a r, show ns name = a ++ "." ++ String DQ r /\ any_char (Ascii.eqb "(") a = false.
