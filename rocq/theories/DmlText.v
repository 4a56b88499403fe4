(** Specification: how drivers and engines read the text of a data-manipulation statement with parameters.
    Continues SqlText.v (lexical rules and token lists); nothing here refers to the code that writes the text. *)
From Verif Require Import PyStr QuoteSpec Ddl SqlText.
From Coq Require Import String List Bool Arith Ascii ZArith.
Import ListNotations.
Open Scope string_scope.

(** ** What is read *)
Inductive source : Type := Present (c : string) | Incoming (c : string).   (* column of the stored row / of the new row *)
Inductive on_duplicate : Type :=
| Fail
| Skip (keys : option (list string))
| Assign (keys : option (list string)) (l : list (string * source)).
Inductive pdml : Type :=
(* the n-th column takes the value of the n-th listed parameter *)
| RInsert (q : pname) (cols : list string) (params : list nat) (dup : on_duplicate)
(* a new row of these columns and parameters; pairs (column of the table, column of the new row) that must agree (any of
   them); assignments to matched rows; columns and values of a row that matches none *)
| RMerge (q : pname) (cols : list string) (params : list nat) (on : list (string * string))
         (upd : option (list (string * string))) (ins : option (list string * list string))
| RDelete (q : pname) (col : string) (param : nat).

(** ** Parameters *)
(** [$2] on PostgreSQL; [:2] on Oracle, Redshift, Snowflake and Delta; MySQL's driver and ODBC number [%s] and [?]
    from left to right: [k] is the position *)
Definition number (w : string) : option nat :=
  if all_digits w then match str_to_n w with Some n => Some (N.to_nat n) | None => None end else None.
Definition param (d : dialect) (k : nat) (ts : list token) : option nat :=
  match d with
  | DPg => match ts with [C c; W w] => if Ascii.eqb c "$" then number w else None | _ => None end
  | DMySQL => match ts with [C c; W w] => if Ascii.eqb c "%" && String.eqb w "S" then Some k else None | _ => None end
  | DMSSQL => match ts with [C c] => if Ascii.eqb c "?" then Some k else None | _ => None end
  | _ => match ts with [C c; W w] => if Ascii.eqb c ":" then number w else None | _ => None end
  end.
Fixpoint params_from (d : dialect) (k : nat) (l : list (list token)) : option (list nat) :=
  match l with
  | [] => Some []
  | x :: r => try n <- param d k x; try ns <- params_from d (S k) r; Some (n :: ns)
  end.
(** ( param, param, ... ) *)
Definition params (d : dialect) (ts : list token) : option (list nat * list token) :=
  try r <- sym "(" ts; try (a, r2) <- inside 0 r; try l <- params_from d 1 (commas 0 a); Some (l, r2).

(** MySQL's driver substitutes parameters with Python's [%] operator before anything is lexed: the number of values that
    the text asks for, [None] if the operator raises *)
Fixpoint format_holes (s : string) : option nat :=
  match s with
  | "" => Some 0
  | String c r =>
      if Ascii.eqb c "%" then
        match r with
        | String c' r' => if Ascii.eqb c' "s" then (try n <- format_holes r'; Some (S n))
                          else if Ascii.eqb c' "%" then format_holes r' else None
        | "" => None
        end
      else format_holes r
  end.

(** ** Clauses *)
(** everything before the given word outside parentheses *)
Fixpoint until_word (w : string) (depth : nat) (ts : list token) : list token * list token :=
  match ts with
  | [] => ([], [])
  | t :: r =>
      let more k := let (a, b) := until_word w k r in (t :: a, b) in
      if is_sym "(" t then more (S depth)
      else if is_sym ")" t then more (pred depth)
      else if is_word [w] t && Nat.eqb depth 0 then ([], ts)
      else more depth
  end.
(** split at OR *)
Fixpoint ors (ts : list token) : list (list token) :=
  match ts with
  | [] => [[]]
  | t :: r => if is_word ["OR"] t then [] :: ors r else match ors r with x :: l => (t :: x) :: l | [] => [[t]] end
  end.
(** target."a" = source."b" *)
Definition equation (ts : list token) : option (string * string) :=
  try r <- kw ["TARGET"] ts; try r <- sym "." r; try (a, r) <- ident r; try r <- sym "=" r;
  try r <- kw ["SOURCE"] r; try r <- sym "." r; try (b, r) <- ident r; done (a, b) r.
Definition source_ref (ts : list token) : option string :=
  try r <- kw ["SOURCE"] ts; try r <- sym "." r; try (b, r) <- ident r; done b r.
(** PostgreSQL: "a" = EXCLUDED."b" *)
Definition pg_assignment (ts : list token) : option (string * source) :=
  try (a, r) <- ident ts; try r <- sym "=" r; try r <- kw ["EXCLUDED"] r; try r <- sym "." r; try (b, r) <- ident r;
  done (a, Incoming b) r.
(** MySQL: "a" = "b" or "a" = VALUES("b") *)
Definition my_assignment (ts : list token) : option (string * source) :=
  try (a, r) <- ident ts; try r <- sym "=" r;
  match kw ["VALUES"] r with
  | Some r => try r <- sym "(" r; try (b, r) <- ident r; try r <- sym ")" r; done (a, Incoming b) r
  | None => try (b, r) <- ident r; done (a, Present b) r
  end.
Definition duplicates (d : dialect) (ts : list token) : option on_duplicate :=
  match ts with
  | [] => Some Fail
  | _ =>
    match d with
    | DMySQL => try r <- kw ["ON"; "DUPLICATE"; "KEY"; "UPDATE"] ts; try l <- each my_assignment (commas 0 r); Some (Assign None l)
    | DPg =>
        try r <- kw ["ON"; "CONFLICT"] ts;
        try (ks, r) <- match kw ["DO"] r with
                       | Some _ => Some (None, r)
                       | None => try (cs, r2) <- columns r; Some (Some cs, r2) end;
        match kw ["DO"; "NOTHING"] r with
        | Some r => done (Skip ks) r
        | None => try r <- kw ["DO"; "UPDATE"; "SET"] r; try l <- each pg_assignment (commas 0 r);
                  match ks with Some _ => Some (Assign ks l) | None => None end    (* DO UPDATE needs a conflict target *)
        end
    | _ => None
    end
  end.
(** a MERGE: the ON clause is mandatory, and so is one of the WHEN clauses *)
Definition merge (d : dialect) (ts : list token) : option pdml :=
  try (q, r) <- object_name ts; try r <- kw ["TARGET"; "USING"] r; try r <- sym "(" r; try r <- kw ["VALUES"] r;
  try (ps, r) <- params d r; try r <- sym ")" r; try r <- kw ["SOURCE"] r; try (cs, r) <- columns r;
  try r <- kw ["ON"] r; try r <- sym "(" r; try (a, r) <- inside 0 r; try on <- each equation (ors a);
  try (upd, r) <- match kw ["WHEN"; "MATCHED"; "THEN"; "UPDATE"; "SET"] r with
                  | Some r => let (a, b) := until_word "WHEN" 0 r in try l <- each equation (commas 0 a); Some (Some l, b)
                  | None => Some (None, r) end;
  try (ins, r) <- match kw ["WHEN"; "NOT"; "MATCHED"; "THEN"; "INSERT"] r with
                  | Some r => try (ic, r) <- columns r; try r <- kw ["VALUES"] r; try r <- sym "(" r; try (a, r) <- inside 0 r;
                              try l <- each source_ref (commas 0 a); Some (Some (ic, l), r)
                  | None => Some (None, r) end;
  match upd, ins with None, None => None | _, _ => done (RMerge q cs ps on upd ins) r end.
Definition data_statement (d : dialect) (ts : list token) : option pdml :=
  match kw ["INSERT"; "INTO"] ts with
  | Some r => try (q, r) <- object_name r; try (cs, r) <- columns r; try r <- kw ["VALUES"] r; try (ps, r) <- params d r;
              try dup <- duplicates d r;
              if Nat.eqb (length cs) (length ps) then Some (RInsert q cs ps dup) else None
  | None =>
  match kw ["MERGE"; "INTO"] ts with
  | Some r => match d with DPg | DMySQL => None | _ => merge d r end
  | None =>
  match kw ["DELETE"; "FROM"] ts with
  | Some r => try (q, r) <- object_name r; try r <- kw ["WHERE"] r; try (c, r) <- ident r; try r <- sym "=" r;
              try k <- param d 1 r; Some (RDelete q c k)
  | None => None
  end end end.

(** The statement that engine [d] reads in a text; a final semicolon may be missing. *)
Definition read_data (d : dialect) (text : string) : option pdml :=
  try ts <- lex d text;
  match statements ts with
  | Some [x] => data_statement d x
  | Some _ => None
  | None => match statements (ts ++ [C ";"])%list with Some [x] => data_statement d x | _ => None end
  end.
