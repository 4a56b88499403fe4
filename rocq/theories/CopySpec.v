(** Specification: how COPY (Amazon Redshift, default options) reads a stream: lines end in a line feed, columns are separated by a
    vertical bar, \N stands for NULL, there is no escape character. *)
From Verif Require Import PyStr QuoteSpec Copy.
From Coq Require Import List ZArith.
Open Scope string_scope.

(** the lines of the stream; what follows the last line feed is a line if there is anything *)
Inductive lines : string -> list string -> Prop :=
| ln_end : lines "" []
| ln_line x s l : has_char LF x = false -> lines s l -> lines (x ++ NL ++ s) (x :: l)
| ln_last x : has_char LF x = false -> x <> "" -> lines x [x].
(** the columns of a line *)
Inductive columns : string -> list string -> Prop :=
| cl_last x : has_char "|" x = false -> columns x [x]
| cl_next x s l : has_char "|" x = false -> columns s l -> columns (x ++ "|" ++ s) (x :: l).
Definition cell (x : string) : option string := if String.eqb x "\N" then None else Some x.
Definition copied (s : string) (rows : list (list (option string))) : Prop :=
  exists ls, lines s ls /\ Forall2 (fun l r => exists cs, columns l cs /\ r = map cell cs) ls rows.

(** the literal that a value is to arrive as, in a column of its type: NULL, the text, a decimal number, true or false, and
    hexadecimal digits for binary data *)
Definition hex_value (c : ascii) : option nat :=
  let n := nat_of_ascii c in
  if Nat.leb 48 n && Nat.leb n 57 then Some (n - 48) else if Nat.leb 97 n && Nat.leb n 102 then Some (n - 87)
  else if Nat.leb 65 n && Nat.leb n 70 then Some (n - 55) else None.
Fixpoint hex_means (t s : string) : Prop :=
  match t, s with
  | "", "" => True
  | String a (String b t), String c s => (exists x y, hex_value a = Some x /\ hex_value b = Some y /\ nat_of_ascii c = 16 * x + y) /\ hex_means t s
  | _, _ => False
  end.
(** [digits] decimal digits that mean [n] *)
Fixpoint decimal (n : N) (s : string) : option N :=
  match s with "" => Some n | String c r => if is_digit c then decimal (10 * n + (N_of_ascii c - 48)) r else None end.
Definition number (digits : nat) (s : string) (n : N) : Prop := String.length s = digits /\ decimal 0 s = Some n.
(** dates and times of day in the default formats of COPY, YYYY-MM-DD and HH:MI:SS, with up to six digits of fractions *)
Definition means_date (t : string) (y m d : N) : Prop :=
  exists a b c, t = a ++ "-" ++ b ++ "-" ++ c /\ number 4 a y /\ number 2 b m /\ number 2 c d.
Definition means_time (t : string) (h mi s us : N) : Prop :=
  exists a b c f, t = a ++ ":" ++ b ++ ":" ++ c ++ f /\ number 2 a h /\ number 2 b mi /\ number 2 c s /\
    (f = "" /\ us = 0%N \/ exists g, f = "." ++ g /\ number 6 g us).
Definition arrives (v : copyval) (c : option string) : Prop :=
  match v, c with
  | VNone, None => True
  | VStr s, Some t => t = s
  | VInt z, Some t => read_val 1 t = Some (SInt z, "")
  | VBool b, Some t => In t (if b then ["TRUE"; "True"; "true"; "t"; "1"] else ["FALSE"; "False"; "false"; "f"; "0"])
  | VBytes s, Some t => hex_means t s
  | VDate y m d, Some t => means_date t y m d
  | VTime h mi s us, Some t => means_time t h mi s us
  | VStamp y m d h mi s us, Some t => exists a b, t = a ++ " " ++ b /\ means_date a y m d /\ means_time b h mi s us
  | _, _ => False
  end.
(** text that COPY takes literally *)
Definition plain (s : string) : Prop := has_char LF s = false /\ has_char "|" s = false /\ s <> "\N".
(** the values that Python's classes have *)
Definition a_date (y m d : N) : Prop := (1 <= y <= 9999 /\ 1 <= m <= 12 /\ 1 <= d <= 31)%N.
Definition a_time (h mi s us : N) : Prop := (h <= 23 /\ mi <= 59 /\ s <= 59 /\ us <= 999999)%N.
Definition copyable (v : copyval) : Prop :=
  match v with
  | VNone | VBytes _ => False
  | VStr s => plain s
  | VInt _ | VBool _ => True
  | VDate y m d => a_date y m d
  | VTime h mi s us => a_time h mi s us
  | VStamp y m d h mi s us => a_date y m d /\ a_time h mi s us
  end.
