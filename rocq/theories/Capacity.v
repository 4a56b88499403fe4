(** What a server can store in a column, by the spelling of its type.  Written from the manuals of the engines and
    independent of the library; [None]: the server rejects the type. *)
From Verif Require Import PyStr QuoteSpec.
From Coq Require Import ZArith.
Open Scope Z_scope.
Open Scope string_scope.

Inductive engine : Type := MySQL | SQLServer | Oracle | PostgreSQL.

(** A text has a number of characters and a size in bytes (UTF-8: one to four bytes for each character). *)
Record text : Type := Text { chars : Z; size : Z }.
Definition text_ok (t : text) : Prop := 0 <= chars t /\ chars t <= size t <= 4 * chars t.
Definition ascii_only (t : text) : Prop := size t = chars t.

Inductive capacity : Type :=
| Ints (lo hi : Z)      (* integers from [lo] to [hi] *)
| Chars (n : Z)         (* texts of up to [n] characters *)
| TextBytes (n : Z)     (* texts of up to [n] bytes *)
| Bytes (n : Z).        (* byte strings of up to [n] bytes *)
Definition fits_int (c : capacity) (z : Z) : Prop := match c with Ints lo hi => lo <= z <= hi | _ => False end.
Definition fits_text (c : capacity) (t : text) : Prop :=
  match c with Chars n => chars t <= n | TextBytes n => size t <= n | _ => False end.
Definition fits_bytes (c : capacity) (n : Z) : Prop := match c with Bytes m => n <= m | _ => False end.

(** [name], [name(n)] or [name(max)] *)
Inductive arg : Type := NoArg | Num (n : Z) | Max.
Fixpoint upto_paren (s : string) : string * string :=
  match s with
  | "" => ("", "")
  | String c r => if Ascii.eqb c "(" then ("", s) else let (a, b) := upto_paren r in (String c a, b)
  end.
Definition read_spelling (s : string) : option (string * arg) :=
  let (name, r) := upto_paren s in
  match r with
  | "" => Some (name, NoArg)
  | "(max)" => Some (name, Max)
  | String _ r' => match scan_nat r' with Some (n, ")") => Some (name, Num (Z.of_N n)) | _ => None end
  end.
Definition in_range (lo hi n : Z) (c : capacity) : option capacity := if ((lo <=? n)%Z && (n <=? hi)%Z)%bool then Some c else None.

(** MySQL 8.0 reference manual, 11.1.2, 11.3.2-11.3.4.  The limit that a row of 65535 bytes puts on all its varchar columns
    together is not part of the type. *)
Definition mysql_type (name : string) (a : arg) : option capacity :=
  match a with
  | NoArg =>
      if name =? "tinyint" then Some (Ints (- 2 ^ 7) (2 ^ 7 - 1))
      else if name =? "smallint" then Some (Ints (- 2 ^ 15) (2 ^ 15 - 1))
      else if (name =? "int") || (name =? "integer") then Some (Ints (- 2 ^ 31) (2 ^ 31 - 1))
      else if name =? "bigint" then Some (Ints (- 2 ^ 63) (2 ^ 63 - 1))
      else if name =? "char" then Some (Chars 1)
      else if name =? "tinytext" then Some (TextBytes (2 ^ 8 - 1))
      else if name =? "text" then Some (TextBytes (2 ^ 16 - 1))
      else if name =? "mediumtext" then Some (TextBytes (2 ^ 24 - 1))
      else if name =? "longtext" then Some (TextBytes (2 ^ 32 - 1))
      else if name =? "binary" then Some (Bytes 1)
      else if name =? "tinyblob" then Some (Bytes (2 ^ 8 - 1))
      else if name =? "blob" then Some (Bytes (2 ^ 16 - 1))
      else if name =? "mediumblob" then Some (Bytes (2 ^ 24 - 1))
      else if name =? "longblob" then Some (Bytes (2 ^ 32 - 1))
      else None
  | Num n =>
      if name =? "char" then in_range 0 255 n (Chars n)
      else if name =? "varchar" then in_range 0 65535 n (Chars n)
      else if name =? "binary" then in_range 0 255 n (Bytes n)
      else if name =? "varbinary" then in_range 0 65535 n (Bytes n)
      else None
  | Max => None
  end%bool.
(** Transact-SQL reference: data types; a character type counts bytes (of a UTF-8 collation) *)
Definition mssql_type (name : string) (a : arg) : option capacity :=
  match a with
  | NoArg =>
      if name =? "tinyint" then Some (Ints 0 255)
      else if name =? "smallint" then Some (Ints (- 2 ^ 15) (2 ^ 15 - 1))
      else if (name =? "int") || (name =? "integer") then Some (Ints (- 2 ^ 31) (2 ^ 31 - 1))
      else if name =? "bigint" then Some (Ints (- 2 ^ 63) (2 ^ 63 - 1))
      else if (name =? "char") || (name =? "varchar") then Some (TextBytes 1)
      else if name =? "text" then Some (TextBytes (2 ^ 31 - 1))
      else if (name =? "binary") || (name =? "varbinary") then Some (Bytes 1)
      else None
  | Num n =>
      if (name =? "char") || (name =? "varchar") then in_range 1 8000 n (TextBytes n)
      else if (name =? "binary") || (name =? "varbinary") then in_range 1 8000 n (Bytes n)
      else None
  | Max =>
      if name =? "varchar" then Some (TextBytes (2 ^ 31 - 1)) else if name =? "varbinary" then Some (Bytes (2 ^ 31 - 1)) else None
  end%bool.
(** Oracle Database SQL reference, "Data types", standard string size, length semantics BYTE; a LOB holds at least
    2^32 - 1 characters or bytes *)
Definition oracle_type (name : string) (a : arg) : option capacity :=
  match a with
  | NoArg =>
      if name =? "number" then Some (Ints (- (10 ^ 38 - 1)) (10 ^ 38 - 1))
      else if (name =? "smallint") || (name =? "int") || (name =? "integer") then Some (Ints (- (10 ^ 38 - 1)) (10 ^ 38 - 1))
      else if name =? "char" then Some (TextBytes 1)
      else if name =? "clob" then Some (Chars (2 ^ 32 - 1))
      else if name =? "blob" then Some (Bytes (2 ^ 32 - 1))
      else None
  | Num n =>
      if name =? "char" then in_range 1 2000 n (TextBytes n)
      else if (name =? "varchar") || (name =? "varchar2") then in_range 1 4000 n (TextBytes n)
      else if name =? "raw" then in_range 1 2000 n (Bytes n)
      else None
  | Max => None
  end%bool.
(** PostgreSQL manual, chapter 8; a value has at most 1 GB, which the length of a varchar or text has to respect, too *)
Definition pg_type (name : string) (a : arg) : option capacity :=
  match a with
  | NoArg =>
      if name =? "smallint" then Some (Ints (- 2 ^ 15) (2 ^ 15 - 1))
      else if (name =? "int") || (name =? "integer") then Some (Ints (- 2 ^ 31) (2 ^ 31 - 1))
      else if name =? "bigint" then Some (Ints (- 2 ^ 63) (2 ^ 63 - 1))
      else if name =? "char" then Some (Chars 1)
      else if (name =? "text") || (name =? "varchar") then Some (TextBytes (2 ^ 30 - 1))
      else if name =? "bytea" then Some (Bytes (2 ^ 30 - 1))
      else None
  | Num n => if (name =? "char") || (name =? "varchar") then in_range 1 10485760 n (Chars n) else None
  | Max => None
  end%bool.
Definition server_type (e : engine) (s : string) : option capacity :=
  match read_spelling s with
  | Some (name, a) => match e with MySQL => mysql_type name a | SQLServer => mssql_type name a | Oracle => oracle_type name a | PostgreSQL => pg_type name a end
  | None => None
  end.
(** the most characters (of one byte) and bytes that a column of the engine can hold *)
Definition most_text (e : engine) : Z := match e with MySQL | Oracle => 2 ^ 32 - 1 | SQLServer => 2 ^ 31 - 1 | PostgreSQL => 2 ^ 30 - 1 end.
Definition most_bytes (e : engine) : Z := match e with MySQL | Oracle => 2 ^ 32 - 1 | SQLServer => 2 ^ 31 - 1 | PostgreSQL => 2 ^ 30 - 1 end.
