(** The text that Redshift's [insert_data] and [insert_rows] write for COPY. *)
From Verif Require Import PyStr.
From Coq Require Import List ZArith.
Open Scope string_scope.

(** Python values of a record.  [VBytes]: UUIDs and IP addresses are turned into [bytes] by the generator
    (pysqlsync/dialect/redshift/generator.py:66-86).  [VTime], [VStamp]: times of day and points of time without time zone.
    Not modelled: float and Decimal objects, whose [str] is text of the Python runtime, and times with a time zone; strings are sequences of characters that are encoded as UTF-8 when written and decoded when read. *)
Inductive copyval : Type := VNone | VStr (s : string) | VInt (z : Z) | VBool (b : bool) | VBytes (s : string)
| VDate (y m d : N) | VTime (h mi s us : N) | VStamp (y m d h mi s us : N).

Definition hex_char (n : nat) : ascii := nth n (list_ascii_of_string "0123456789abcdef") "0"%char.
(** one byte of [repr(bytes)], between quotes [q] (Python runtime) *)
Definition repr_byte (q c : ascii) : string :=
  if Ascii.eqb c q || Ascii.eqb c BS then String BS (String c "")
  else if Ascii.eqb c TAB then "\t" else if Ascii.eqb c LF then "\n" else if Ascii.eqb c CR then "\r"
  else let n := nat_of_ascii c in
       if Nat.ltb n 32 || Nat.leb 127 n then "\x" ++ String (hex_char (n / 16)) (String (hex_char (n mod 16)) "") else String c "".
Fixpoint repr_bytes (q : ascii) (s : string) : string :=
  match s with "" => "" | String c r => repr_byte q c ++ repr_bytes q r end.
(** [str] of [datetime.date] ("%04d-%02d-%02d"), [datetime.time] ("%02d:%02d:%02d", and ".%06d" if there are microseconds) and
    [datetime.datetime] (both, with a space between) of Python *)
Definition digit (k : N) : ascii := ascii_of_N (48 + k).
Definition two (n : N) : string := String (digit (n / 10)) (String (digit (n mod 10)) "").
Definition four (n : N) : string := two (n / 100) ++ two (n mod 100).
Definition six (n : N) : string := two (n / 10000) ++ four (n mod 10000).
Definition date_str (y m d : N) : string := four y ++ "-" ++ two m ++ "-" ++ two d.
Definition time_str (h mi s us : N) : string := two h ++ ":" ++ two mi ++ ":" ++ two s ++ (if N.eqb us 0 then "" else "." ++ six us).
(** [str(value)] *)
Definition py_str (v : copyval) : string :=
  match v with
  | VNone => "None"
  | VStr s => s
  | VInt z => z_to_str z
  | VBool b => if b then "True" else "False"
  | VBytes s => let q := if has_char QT s && negb (has_char DQ s) then DQ else QT in "b" ++ String q (repr_bytes q s ++ String q "")
  | VDate y m d => date_str y m d
  | VTime h mi s us => time_str h mi s us
  | VStamp y m d h mi s us => date_str y m d ++ " " ++ time_str h mi s us
  end.
(** [_insert_copy_stream], pysqlsync/dialect/redshift/connection.py:153-157: one line for each record *)
Definition copy_line (r : list copyval) : string := join_str "|" (map py_str r) ++ NL.
Fixpoint copy_stream (rs : list (list copyval)) : string :=
  match rs with [] => "" | r :: rs => copy_line r ++ copy_stream rs end.
(** [_insert_rows], 119-133: one COPY for each batch of records (the batches: [Batch.v], C26) *)
Definition copy_batches (bs : list (list (list copyval))) : list string := map copy_stream bs.
