(** Independent specification: how SQL engines scan literals, identifiers and
    LIKE patterns.  Nothing here refers to the generator. *)
From Verif Require Import PyStr.
Open Scope string_scope.

(** Text of a standard SQL literal after the opening apostrophe: two apostrophes
    in a row stand for one, a single one ends the literal.  Returns the value and
    the rest of the input; [None] = unterminated. *)
Fixpoint scan_quoted (q : ascii) (s : string) : option (string * string) :=
  match s with
  | "" => None
  | String c r =>
      if Ascii.eqb c q then
        match r with
        | String c2 r2 =>
            if Ascii.eqb c2 q
            then match scan_quoted q r2 with
                 | Some (v, rest) => Some (String q v, rest)
                 | None => None
                 end
            else Some ("", r)
        | "" => Some ("", r)
        end
      else match scan_quoted q r with
           | Some (v, rest) => Some (String c v, rest)
           | None => None
           end
  end.

(** A token that starts with quote character [q] *)
Definition scan_token (q : ascii) (s : string) : option (string * string) :=
  match s with
  | String c r => if Ascii.eqb c q then scan_quoted q r else None
  | "" => None
  end.

Definition sql_literal (s : string) := scan_token QT s.
Definition sql_ident (s : string) := scan_token DQ s.

(** A possibly schema-qualified identifier: ["a"."b"] or ["b"]. *)
Definition sql_qualified (s : string) : option (option string * string * string) :=
  match sql_ident s with
  | None => None
  | Some (a, String "." r) =>
      match sql_ident r with
      | Some (b, rest) => Some (Some a, b, rest)
      | None => None
      end
  | Some (a, rest) => Some (None, a, rest)
  end.

(** Literals with backslash escapes, after the opening apostrophe.  [esc c] is the
    character denoted by backslash [c]; if [dbl], two apostrophes also stand for one.
    A trailing lone backslash is an error. *)
Fixpoint scan_escaped (esc : ascii -> ascii) (dbl : bool) (s : string) : option (string * string) :=
  match s with
  | "" => None
  | String c r =>
      if Ascii.eqb c BS then
        match r with
        | String c2 r2 =>
            match scan_escaped esc dbl r2 with
            | Some (v, rest) => Some (String (esc c2) v, rest)
            | None => None
            end
        | "" => None
        end
      else if Ascii.eqb c QT then
        match r with
        | String c2 r2 =>
            if dbl && Ascii.eqb c2 QT
            then match scan_escaped esc dbl r2 with
                 | Some (v, rest) => Some (String QT v, rest)
                 | None => None
                 end
            else Some ("", r)
        | "" => Some ("", r)
        end
      else match scan_escaped esc dbl r with
           | Some (v, rest) => Some (String c v, rest)
           | None => None
           end
  end.

(** Escape letters (PostgreSQL manual 4.1.2.2; MySQL manual 9.1.1; Snowflake and Spark manuals).
    An unknown letter stands for itself. *)
Definition esc_pg (c : ascii) : ascii :=
  if Ascii.eqb c "b" then BEL else if Ascii.eqb c "f" then FF
  else if Ascii.eqb c "n" then LF else if Ascii.eqb c "r" then CR
  else if Ascii.eqb c "t" then TAB else c.
Definition esc_delta (c : ascii) : ascii :=
  if Ascii.eqb c "0" then NUL else if Ascii.eqb c "b" then BEL
  else if Ascii.eqb c "n" then LF else if Ascii.eqb c "r" then CR
  else if Ascii.eqb c "t" then TAB else if Ascii.eqb c "Z" then SUB else c.
Definition esc_snow (c : ascii) : ascii :=
  if Ascii.eqb c "0" then NUL else if Ascii.eqb c "b" then BEL
  else if Ascii.eqb c "f" then FF
  else if Ascii.eqb c "n" then LF else if Ascii.eqb c "r" then CR
  else if Ascii.eqb c "t" then TAB else c.
(** MySQL without NO_BACKSLASH_ESCAPES: backslash escapes and doubled apostrophes *)
Definition esc_mysql (c : ascii) : ascii :=
  if Ascii.eqb c "0" then NUL else if Ascii.eqb c "b" then BEL
  else if Ascii.eqb c "n" then LF else if Ascii.eqb c "r" then CR
  else if Ascii.eqb c "t" then TAB else if Ascii.eqb c "Z" then SUB else c.

(** PostgreSQL: [E'...'] has backslash escapes, ['...'] has not
    (standard_conforming_strings = on, the default). *)
Definition pg_literal (s : string) : option (string * string) :=
  match s with
  | String e (String q r) =>
      if Ascii.eqb e "E" && Ascii.eqb q QT then scan_escaped esc_pg true r
      else sql_literal s
  | _ => sql_literal s
  end.
Definition esc_literal (esc : ascii -> ascii) (dbl : bool) (s : string) : option (string * string) :=
  match s with
  | String q r => if Ascii.eqb q QT then scan_escaped esc dbl r else None
  | "" => None
  end.
Definition delta_literal := esc_literal esc_delta false.
Definition snow_literal := esc_literal esc_snow true.
Definition mysql_literal := esc_literal esc_mysql true.

(** Comma-separated literals as they occur between parentheses in a SQL statement. *)
Inductive literal_list : string -> list string -> string -> Prop :=
| LL_nil s : literal_list s [] s
| LL_one s v rest : sql_literal s = Some (v, rest) -> literal_list s [v] rest
| LL_cons s v s' vs rest :
    sql_literal s = Some (v, ", " ++ s') -> vs <> [] ->
    literal_list s' vs rest -> literal_list s (v :: vs) rest.

(** LIKE with an escape character: pattern language as a relation on (pattern, subject).
    [%] matches any text, [_] any one character, the escape character makes the next
    pattern character literal. *)
Inductive like (e : ascii) : string -> string -> Prop :=
| like_nil : like e "" ""
| like_esc c p s : like e p s -> like e (String e (String c p)) (String c s)
| like_any p t s : e <> "%"%char -> like e p s -> like e (String "%" p) (t ++ s)
| like_one c p s : e <> "_"%char -> like e p s -> like e (String "_" p) (String c s)
| like_lit c p s : c <> e -> c <> "%"%char -> c <> "_"%char ->
    like e p s -> like e (String c p) (String c s).

(** Row values: [TRUE]/[FALSE], decimal integers, string literals, parenthesised
    comma-separated lists.  [row_value s v rest]: reading [s] gives [v] and leaves [rest]. *)
Inductive sqlval : Type :=
| SStr (s : string) | SBool (b : bool) | SInt (z : Z) | SRow (l : list sqlval).

(** longest run of digits *)
Fixpoint span_digits (s : string) : string * string :=
  match s with
  | "" => ("", "")
  | String c r => if is_digit c then let (a, b) := span_digits r in (String c a, b) else ("", s)
  end.

Definition scan_nat (s : string) : option (N * string) :=
  match span_digits s with
  | ("", _) => None
  | (ds, r) => match str_to_n ds with Some n => Some (n, r) | None => None end
  end.

(** A deterministic recursive-descent reader; [fuel] bounds the recursion and running out
    of it is a failure ([None]). *)
Fixpoint read_val (fuel : nat) (s : string) : option (sqlval * string) :=
  match fuel with
  | 0 => None
  | S k =>
      match s with
      | "" => None
      | String c r =>
          if Ascii.eqb c QT then
            match sql_literal s with Some (v, rest) => Some (SStr v, rest) | None => None end
          else if Ascii.eqb c "T" then
            match drop_prefix "TRUE" s with Some rest => Some (SBool true, rest) | None => None end
          else if Ascii.eqb c "F" then
            match drop_prefix "FALSE" s with Some rest => Some (SBool false, rest) | None => None end
          else if Ascii.eqb c "-" then
            match scan_nat r with Some (n, rest) => Some (SInt (- Z.of_N n), rest) | None => None end
          else if Ascii.eqb c "(" then
            match drop_prefix ")" r with
            | Some rest => Some (SRow [], rest)
            | None => match read_items k r with
                      | Some (l, rest) => Some (SRow l, rest)
                      | None => None
                      end
            end
          else match scan_nat s with Some (n, rest) => Some (SInt (Z.of_N n), rest) | None => None end
      end
  end
with read_items (fuel : nat) (s : string) : option (list sqlval * string) :=
  match fuel with
  | 0 => None
  | S k =>
      match read_val k s with
      | None => None
      | Some (v, r) =>
          match drop_prefix ", " r with
          | Some r2 => match read_items k r2 with
                       | Some (l, rest) => Some (v :: l, rest)
                       | None => None
                       end
          | None => match drop_prefix ")" r with
                    | Some rest => Some ([v], rest)
                    | None => None
                    end
          end
      end
  end.

(** does the text begin with character [c]? *)
Definition begins (c : ascii) (s : string) : Prop := exists r, s = String c r.
