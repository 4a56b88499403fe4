(** Specification: how a database engine reads the text of a script.  A lexer that follows the lexical
    rules of each engine (quoted identifiers, string literals with the engine's escape rules, words,
    symbols, comments refused) and a deterministic parser for the data-definition and seeding statements.
    Nothing here refers to the code that writes the text (only the names of the engines are shared). *)
From Verif Require Import PyStr QuoteSpec.
From Verif Require Import Ddl.
From Coq Require Import String List Bool Arith Ascii ZArith.
Import ListNotations.
Open Scope string_scope.

(** ** Tokens *)
Inductive token : Type :=
| W (s : string)      (* a word or number, upper-cased: keywords and unquoted names ignore case *)
| I (s : string)      (* a quoted identifier: its value *)
| L (s : string)      (* a string literal: its value *)
| C (c : ascii).      (* any other symbol *)

Definition between (lo hi : nat) (c : ascii) : bool := Nat.leb lo (nat_of_ascii c) && Nat.leb (nat_of_ascii c) hi.
Definition upper (c : ascii) : ascii :=
  if between 97 122 c then ascii_of_nat (nat_of_ascii c - 32) else c.
Fixpoint upcase (s : string) : string :=
  match s with "" => "" | String c r => String (upper c) (upcase r) end.
Definition word_char (c : ascii) : bool :=
  between 65 90 c || between 97 122 c || is_digit c || Ascii.eqb c "_" || between 128 255 c.
Definition space_char (c : ascii) : bool := in_class [" "%char; LF; CR; TAB; VT; FF] c.
Definition symbol_char (c : ascii) : bool :=
  in_class ["("; ")"; ","; ";"; "."; "="; ":"; "<"; ">"; "+"; "-"; "*"; "/"; "%"; "|"; "!"; "&"; "^"; "~"; "?"; "$"]%char c.

Fixpoint span_word (s : string) : string * string :=
  match s with
  | "" => ("", "")
  | String c r => if word_char c then let (a, b) := span_word r in (String c a, b) else ("", s)
  end.
Definition head_is (p : ascii -> bool) (s : string) : bool :=
  match s with "" => false | String c _ => p c end.
(** characters that cannot follow a word directly *)
Definition quote_char (c : ascii) : bool := Ascii.eqb c QT || Ascii.eqb c DQ || Ascii.eqb c "$".

(** the text of a literal after the opening apostrophe: PostgreSQL (standard_conforming_strings), SQL Server
    and Oracle know doubled apostrophes only; MySQL and Snowflake also backslash escapes; Delta (Spark)
    backslash escapes only *)
Definition scan_lit (d : dialect) (s : string) : option (string * string) :=
  match d with
  | DMySQL => scan_escaped esc_mysql true s
  | DSnow => scan_escaped esc_snow true s
  | DDelta => scan_escaped esc_delta false s
  | _ => scan_quoted QT s
  end.
(** a literal with a prefix letter, after the letter and the apostrophe: E'...' of PostgreSQL, N'...' of SQL Server *)
Definition scan_prefixed (d : dialect) (c : ascii) (s : string) : option (option (string * string)) :=
  match d with
  | DPg => if Ascii.eqb (upper c) "E" then Some (scan_escaped esc_pg true s) else None
  | DMSSQL => if Ascii.eqb (upper c) "N" then Some (scan_quoted QT s) else None
  | _ => None
  end.
(** comments, and a dollar sign that is not the beginning of a parameter ($1) *)
Definition opens_comment (c : ascii) (r : string) : bool :=
  (Ascii.eqb c "-" && head_is (Ascii.eqb "-") r) || (Ascii.eqb c "/" && head_is (Ascii.eqb "*") r)
  || (Ascii.eqb c "$" && negb (head_is is_digit r)).

Definition as_token (f : string -> token) (x : option (string * string)) : option (list token * string) :=
  match x with Some (v, rest) => Some ([f v], rest) | None => None end.
(** the first token of a non-empty text (no token for white space) and the rest *)
Definition next (d : dialect) (s : string) : option (list token * string) :=
  match s with
  | "" => None
  | String c r =>
      if space_char c then Some ([], r)
      else if Ascii.eqb c DQ then as_token I (scan_quoted DQ r)
      else if Ascii.eqb c QT then as_token L (scan_lit d r)
      else if word_char c then
        match (match r with String q r' => if Ascii.eqb q QT then scan_prefixed d c r' else None | "" => None end) with
        | Some x => as_token L x
        | None => let (w, rest) := span_word s in
                  if head_is quote_char rest then None else Some ([W (upcase w)], rest)
        end
      else if symbol_char c then (if opens_comment c r then None else Some ([C c], r))
      else None
  end.
Fixpoint lex_go (d : dialect) (fuel : nat) (s : string) : option (list token) :=
  match s with
  | "" => Some []
  | _ => match fuel with
         | 0 => None
         | S k => match next d s with
                  | Some (ts, rest) => match lex_go d k rest with Some tl => Some (ts ++ tl)%list | None => None end
                  | None => None
                  end
         end
  end.
(** the tokens of a text; [None] if the engine cannot read it (or it contains a comment) *)
Definition lex (d : dialect) (s : string) : option (list token) := lex_go d (String.length s) s.

(** ** Structure of token lists *)
Definition is_sym (c : ascii) (t : token) : bool := match t with C x => Ascii.eqb x c | _ => false end.
Definition is_word (l : list string) (t : token) : bool := match t with W w => existsb (String.eqb w) l | _ => false end.

(** statements: everything up to a semicolon *)
Fixpoint statements (ts : list token) : option (list (list token)) :=
  match ts with
  | [] => Some []
  | t :: r =>
      if is_sym ";" t then match statements r with Some l => Some ([] :: l) | None => None end
      else match statements r with
           | Some (x :: l) => Some ((t :: x) :: l)
           | _ => None
           end
  end.
(** the token list inside a parenthesis, and what follows the closing one *)
Fixpoint inside (depth : nat) (ts : list token) : option (list token * list token) :=
  match ts with
  | [] => None
  | t :: r =>
      let more k := match inside k r with Some (a, b) => Some (t :: a, b) | None => None end in
      if is_sym "(" t then more (S depth)
      else if is_sym ")" t then match depth with 0 => Some ([], r) | S k => more k end
      else more depth
  end.
(** split at commas outside parentheses *)
Fixpoint commas (depth : nat) (ts : list token) : list (list token) :=
  match ts with
  | [] => [[]]
  | t :: r =>
      let more k := match commas k r with x :: l => (t :: x) :: l | [] => [[t]] end in
      if is_sym "(" t then more (S depth)
      else if is_sym ")" t then more (pred depth)
      else if is_sym "," t && Nat.eqb depth 0 then [] :: commas 0 r
      else more depth
  end.
(** words that end a data type or an expression in a column definition *)
Definition clause_words : list string :=
  ["NOT"; "NULL"; "DEFAULT"; "CONSTRAINT"; "GENERATED"; "IDENTITY"; "AUTO_INCREMENT"; "COMMENT"; "FOR"; "DROP"].
Fixpoint until_clause (depth : nat) (ts : list token) : list token * list token :=
  match ts with
  | [] => ([], [])
  | t :: r =>
      let more k := let (a, b) := until_clause k r in (t :: a, b) in
      if is_sym "(" t then more (S depth)
      else if is_sym ")" t then more (pred depth)
      else if is_word clause_words t && Nat.eqb depth 0 then ([], ts)
      else more depth
  end.

(** ** Parsers *)
Notation "'try' p <- e ; k" := (match e with Some p => k | None => None end)
  (at level 200, p pattern, e at level 100, k at level 200, right associativity).
(** the given keywords *)
Fixpoint kw (l : list string) (ts : list token) : option (list token) :=
  match l with
  | [] => Some ts
  | w :: l' => match ts with
               | W x :: r => if String.eqb x w then kw l' r else None
               | _ => None
               end
  end.
Definition sym (c : ascii) (ts : list token) : option (list token) :=
  match ts with C x :: r => if Ascii.eqb x c then Some r else None | _ => None end.
Definition ident (ts : list token) : option (string * list token) :=
  match ts with I n :: r => Some (n, r) | _ => None end.
Definition lit (ts : list token) : option (string * list token) :=
  match ts with L v :: r => Some (v, r) | _ => None end.
Definition done {A} (x : A) (ts : list token) : option A := match ts with [] => Some x | _ => None end.

(** a possibly schema-qualified name *)
Definition pname : Type := (option string * string)%type.
Definition object_name (ts : list token) : option (pname * list token) :=
  try (a, r) <- ident ts;
  match sym "." r with
  | Some r1 => try (b, r2) <- ident r1; Some ((Some a, b), r2)
  | None => Some ((None, a), r)
  end.
(** table.column *)
Definition name_dot (ts : list token) : option (pname * string * list token) :=
  try (a, r) <- ident ts;
  try r1 <- sym "." r;
  try (b, r2) <- ident r1;
  match sym "." r2 with
  | Some r3 => try (c, r4) <- ident r3; Some ((Some a, b), c, r4)
  | None => Some ((None, a), b, r2)
  end.
(** name, name, ...) after the opening parenthesis; likewise for literals *)
Fixpoint idents (ts : list token) : option (list string * list token) :=
  match ts with
  | I n :: C c :: r =>
      if Ascii.eqb c ")" then Some ([n], r)
      else if Ascii.eqb c "," then try (l, r2) <- idents r; Some (n :: l, r2)
      else None
  | _ => None
  end.
Fixpoint lits (ts : list token) : option (list string * list token) :=
  match ts with
  | L n :: C c :: r =>
      if Ascii.eqb c ")" then Some ([n], r)
      else if Ascii.eqb c "," then try (l, r2) <- lits r; Some (n :: l, r2)
      else None
  | _ => None
  end.
Definition columns (ts : list token) : option (list string * list token) := try r <- sym "(" ts; idents r.

(** an expression: a first word may be any word (NULL, NOT, ...) *)
Definition expr (ts : list token) : option (list token * list token) :=
  match ts with
  | [] => None
  | W w :: r => let (a, b) := until_clause 0 r in Some (W w :: a, b)
  | _ => let (a, b) := until_clause 0 ts in match a with [] => None | _ => Some (a, b) end
  end.
Definition typ (ts : list token) : option (list token * list token) :=
  let (a, b) := until_clause 0 ts in match a with [] => None | _ => Some (a, b) end.

(** *** Column definitions *)
Record pcol : Type := PC {
  pc_name : string; pc_type : list token; pc_notnull : bool; pc_default : option (option string * list token);
  pc_identity : bool; pc_comment : option string }.
Definition set_notnull (c : pcol) : option pcol :=
  if pc_notnull c then None else Some (PC (pc_name c) (pc_type c) true (pc_default c) (pc_identity c) (pc_comment c)).
Definition set_default (k : option string) (e : list token) (c : pcol) : option pcol :=
  match pc_default c with Some _ => None
  | None => Some (PC (pc_name c) (pc_type c) (pc_notnull c) (Some (k, e)) (pc_identity c) (pc_comment c)) end.
Definition set_identity (c : pcol) : option pcol :=
  if pc_identity c then None else Some (PC (pc_name c) (pc_type c) (pc_notnull c) (pc_default c) true (pc_comment c)).
Definition set_comment (s : string) (c : pcol) : option pcol :=
  match pc_comment c with Some _ => None
  | None => Some (PC (pc_name c) (pc_type c) (pc_notnull c) (pc_default c) (pc_identity c) (Some s)) end.
(** words for an identity column *)
Definition identity_words (d : dialect) : list string :=
  match d with
  | DMySQL => ["AUTO_INCREMENT"] | DMSSQL | DSnow => ["IDENTITY"]
  | _ => ["GENERATED"; "BY"; "DEFAULT"; "AS"; "IDENTITY"]
  end.
(** at most eight clauses, each at most once *)
Fixpoint clauses (d : dialect) (fuel : nat) (ts : list token) (c : pcol) : option pcol :=
  match ts with
  | [] => Some c
  | _ =>
    match fuel with
    | 0 => None
    | S k =>
      match kw ["NOT"; "NULL"] ts with
      | Some r => try c' <- set_notnull c; clauses d k r c'
      | None =>
      match kw ["DEFAULT"] ts with
      | Some r => try (e, r2) <- expr r; try c' <- set_default None e c; clauses d k r2 c'
      | None =>
      match kw ["CONSTRAINT"] ts with
      | Some r => try (n, r1) <- ident r; try r2 <- kw ["DEFAULT"] r1; try (e, r3) <- expr r2;
                  try c' <- set_default (Some n) e c; clauses d k r3 c'
      | None =>
      match kw (identity_words d) ts with
      | Some r => try c' <- set_identity c; clauses d k r c'
      | None => try r <- kw ["COMMENT"] ts; try (s, r2) <- lit r; try c' <- set_comment s c; clauses d k r2 c'
      end end end end
    end
  end.
Definition column_definition (d : dialect) (ts : list token) : option pcol :=
  try (n, r) <- ident ts; try (t, r2) <- typ r; clauses d 8 r2 (PC n t false None false None).

(** *** Table constraints, after CONSTRAINT name *)
Inductive pkey : Type :=
| KUnique (cs : list string) | KForeign (cs : list string) (q : pname) (rs : list string) | KCheck (e : list token).
Definition key_spec (ts : list token) : option pkey :=
  match kw ["UNIQUE"] ts with
  | Some r => try (cs, r2) <- columns r; done (KUnique cs) r2
  | None =>
  match kw ["FOREIGN"; "KEY"] ts with
  | Some r => try (cs, r2) <- columns r; try r3 <- kw ["REFERENCES"] r2; try (q, r4) <- object_name r3;
              try (rs, r5) <- columns r4; done (KForeign cs q rs) r5
  | None => try r <- kw ["CHECK"] ts; try r2 <- sym "(" r; try (e, r3) <- inside 0 r2; done (KCheck e) r3
  end end.

(** *** Actions of ALTER TABLE *)
Record pmodify : Type := PM { pm_type : option (list token); pm_default : option (list token);
                              pm_null : option bool; pm_identity : option bool }.
Inductive paction : Type :=
| PAddColumn (c : pcol) | PDropColumn (n : string) | PRenameColumn (n m : string) | PChangeColumn (n : string) (c : pcol)
| PSetType (n : string) (t : list token) | PSetNotNull (n : string) | PDropNotNull (n : string)
| PSetDefault (n : string) (e : list token) | PDropDefault (n : string) | PDropIdentity (n : string) | PAddIdentity (n : string)
| PModifyColumn (c : pcol) | PMsAlter (n : string) (t : list token) (notnull : bool) | POraModify (n : string) (m : pmodify)
| PAddConstraint (n : string) (k : pkey) | PDropConstraint (n : string) | PAddDefault (k : string) (e : list token) (n : string).

(** ADD CONSTRAINT name ...; SQL Server: also DEFAULT expression FOR column *)
Definition add_constraint (d : dialect) (ts : list token) : option paction :=
  try (n, r) <- ident ts;
  match (match d with DMSSQL => kw ["DEFAULT"] r | _ => None end) with
  | Some r1 => try (e, r2) <- expr r1; try r3 <- kw ["FOR"] r2; try (c, r4) <- ident r3; done (PAddDefault n e c) r4
  | None => try k <- key_spec r; Some (PAddConstraint n k)
  end.
Definition drop_one (ts : list token) : option paction :=
  match kw ["COLUMN"] ts with
  | Some r => try (n, r2) <- ident r; done (PDropColumn n) r2
  | None => try r <- kw ["CONSTRAINT"] ts; try (n, r2) <- ident r; done (PDropConstraint n) r2
  end.
(** Oracle: MODIFY column [type] [DEFAULT e] [NOT NULL | NULL] [identity clause | DROP IDENTITY] *)
Definition modify (ts : list token) : option pmodify :=
  let (t, r) := until_clause 0 ts in
  let ty := match t with [] => None | _ => Some t end in
  try (df, r1) <- match kw ["DEFAULT"] r with
                  | Some r' => try (e, r2) <- expr r'; Some (Some e, r2)
                  | None => Some (None, r) end;
  let (nl, r2) := match kw ["NOT"; "NULL"] r1 with
                  | Some r' => (Some false, r')
                  | None => match kw ["NULL"] r1 with Some r' => (Some true, r') | None => (None, r1) end end in
  let (id, r3) := match kw ["GENERATED"; "BY"; "DEFAULT"; "AS"; "IDENTITY"] r2 with
                  | Some r' => (Some true, r')
                  | None => match kw ["DROP"; "IDENTITY"] r2 with Some r' => (Some false, r') | None => (None, r2) end end in
  done (PM ty df nl id) r3.

(** ALTER COLUMN name ... : PostgreSQL and the like *)
Definition alter_column (d : dialect) (ts : list token) : option paction :=
  try (n, r) <- ident ts;
  match d with
  | DMySQL | DOracle => None
  | DMSSQL => try (t, r2) <- typ r;
              match kw ["NOT"; "NULL"] r2 with
              | Some r3 => done (PMsAlter n t true) r3
              | None => done (PMsAlter n t false) r2 end
  | _ =>
  match kw ["SET"; "DATA"; "TYPE"] r with
  | Some r2 => try (t, r3) <- typ r2; done (PSetType n t) r3
  | None =>
  match kw ["SET"; "NOT"; "NULL"] r with
  | Some r2 => done (PSetNotNull n) r2
  | None =>
  match kw ["DROP"; "NOT"; "NULL"] r with
  | Some r2 => done (PDropNotNull n) r2
  | None =>
  match kw ["SET"; "DEFAULT"] r with
  | Some r2 => try (e, r3) <- expr r2; done (PSetDefault n e) r3
  | None =>
  match kw ["DROP"; "DEFAULT"] r with
  | Some r2 => done (PDropDefault n) r2
  | None =>
  match kw ["DROP"; "IDENTITY"] r with
  | Some r2 => done (PDropIdentity n) r2
  | None => try r2 <- kw ["ADD"; "GENERATED"; "BY"; "DEFAULT"; "AS"; "IDENTITY"] r; done (PAddIdentity n) r2
  end end end end end end end.

(** one action.  ADD COLUMN is the syntax of all engines but SQL Server and Oracle, which write ADD;
    SQL Server has no RENAME COLUMN; CHANGE and MODIFY COLUMN are MySQL's, MODIFY is Oracle's *)
Definition table_action (d : dialect) (ts : list token) : option paction :=
  match kw ["ADD"; "CONSTRAINT"] ts with
  | Some r => add_constraint d r
  | None =>
  match kw ["ADD"] ts with
  | Some r => try r2 <- match d with DMSSQL | DOracle => Some r | _ => kw ["COLUMN"] r end;
              try c <- column_definition d r2; Some (PAddColumn c)
  | None =>
  match kw ["DROP"] ts with
  | Some r => drop_one r
  | None =>
  match kw ["ALTER"; "COLUMN"] ts with
  | Some r => alter_column d r
  | None =>
  match d with
  | DMSSQL => None
  | _ =>
  match kw ["RENAME"; "COLUMN"] ts with
  | Some r => try (n, r2) <- ident r; try r3 <- kw ["TO"] r2; try (m, r4) <- ident r3; done (PRenameColumn n m) r4
  | None =>
  match d with
  | DMySQL => match kw ["CHANGE"] ts with
              | Some r => try (n, r2) <- ident r; try c <- column_definition d r2; Some (PChangeColumn n c)
              | None => try r <- kw ["MODIFY"; "COLUMN"] ts; try c <- column_definition d r; Some (PModifyColumn c) end
  | DOracle => try r <- kw ["MODIFY"] ts; try (n, r2) <- ident r; try m <- modify r2; Some (POraModify n m)
  | _ => None
  end end end end end end end.

Fixpoint each {A B} (f : A -> option B) (l : list A) : option (list B) :=
  match l with
  | [] => Some []
  | x :: r => try y <- f x; try ys <- each f r; Some (y :: ys)
  end.
(** SQL Server: ADD / DROP is written once, before the first item *)
Definition ms_more (drop : bool) (ts : list token) : option paction :=
  if drop then drop_one ts
  else match kw ["CONSTRAINT"] ts with
       | Some r => add_constraint DMSSQL r
       | None => try c <- column_definition DMSSQL ts; Some (PAddColumn c) end.
Definition actions (d : dialect) (ts : list token) : option (list paction) :=
  match commas 0 ts with
  | [] => None
  | x :: more =>
      match d with
      | DMSSQL => try a <- table_action d x;
                  match more with
                  | [] => Some [a]
                  | _ => try r <- each (ms_more match kw ["DROP"] x with Some _ => true | None => false end) more;
                         match kw ["ALTER"] x with Some _ => None | None => Some (a :: r) end
                  end
      | DOracle => match more with [] => try a <- table_action d x; Some [a] | _ => None end
      | _ => each (table_action d) (x :: more)
      end
  end.

(** *** Rows of INSERT *)
Definition value (ts : list token) : option (sqlval * list token) :=
  match ts with
  | L s :: r => Some (SStr s, r)
  | W w :: r => if String.eqb w "TRUE" then Some (SBool true, r)
                else if String.eqb w "FALSE" then Some (SBool false, r)
                else match str_to_n w with Some n => if all_digits w then Some (SInt (Z.of_N n), r) else None | None => None end
  | C c :: W w :: r => if Ascii.eqb c "-"
                       then match str_to_n w with Some n => if all_digits w then Some (SInt (- Z.of_N n), r) else None | None => None end
                       else None
  | _ => None
  end.
Definition value_only (ts : list token) : option sqlval := try (v, r) <- value ts; done v r.
Definition row (ts : list token) : option (list sqlval) :=
  try r <- sym "(" ts; try (a, r2) <- inside 0 r; try l <- each value_only (commas 0 a); done l r2.
Fixpoint until_on (ts : list token) : list token * list token :=
  match ts with
  | [] => ([], [])
  | t :: r => if is_word ["ON"] t then ([], ts) else let (a, b) := until_on r in (t :: a, b)
  end.

(** *** Statements *)
Inductive paction_s : Type :=
| PsDrop (n : string) | PsSetType (n : string) (t : list token) | PsAdd (n : string) (t : list token).
Inductive pconflict : Type := PNone | PDoNothing (k : string) | PKeepRow (k v : string).
Inductive pstmt : Type :=
| PCreateSchema (if_not_exists : bool) (n : string)
| PDropSchema (if_exists cascade : bool) (n : string)
| PCreateEnum (q : pname) (vs : list string)
| PCreateStruct (q : pname) (ms : list (string * list token))
| PDropType (q : pname)
| PRenameType (q : pname) (n : string)
| PAddValue (q : pname) (v : string)
| PAlterStruct (q : pname) (acts : list paction_s)
| PCreateTable (q : pname) (cols : list pcol) (pkname : string) (pk : list string) (comment : option string)
| PDropTable (q : pname)
| PAlterTable (q : pname) (acts : list paction)
| PCommentTable (q : pname) (c : option string)
| PCommentColumn (q : pname) (col : string) (c : option string)
| PCommentType (q : pname) (c : option string)
| PTableComment (q : pname) (c : string)
| PInsert (q : pname) (cols : list string) (rows : list (list sqlval)) (oc : pconflict)
| PInsertDistinct (q : pname) (col : string) (src : pname) (srccol : string) (oc : pconflict)
(* set [newcol] of [q] to column [get] of the row of [ref] whose column [key] equals (as text) column [oldcol] *)
| PUpdateLookup (q : pname) (newcol oldcol : string) (ref : pname) (key get : string) (as_text : bool).

Definition member (ts : list token) : option (string * list token) :=
  try (n, r) <- ident ts; try (t, r2) <- typ r; done (n, t) r2.
Definition struct_action (ts : list token) : option paction_s :=
  match kw ["DROP"; "ATTRIBUTE"] ts with
  | Some r => try (n, r2) <- ident r; done (PsDrop n) r2
  | None =>
  match kw ["ALTER"; "ATTRIBUTE"] ts with
  | Some r => try (n, r2) <- ident r; try r3 <- kw ["SET"; "DATA"; "TYPE"] r2; try (t, r4) <- typ r3; done (PsSetType n t) r4
  | None => try r <- kw ["ADD"; "ATTRIBUTE"] ts; try (n, r2) <- ident r; try (t, r3) <- typ r2; done (PsAdd n t) r3
  end end.
Definition comment_text (ts : list token) : option (option string) :=
  match kw ["NULL"] ts with
  | Some r => done None r
  | None => try (s, r) <- lit ts; done (Some s) r end.
(** column definitions, then CONSTRAINT name PRIMARY KEY (columns) *)
Fixpoint table_items (d : dialect) (l : list (list token)) : option (list pcol * (string * list string)) :=
  match l with
  | [] => None
  | [x] => try r <- kw ["CONSTRAINT"] x; try (n, r2) <- ident r; try r3 <- kw ["PRIMARY"; "KEY"] r2;
           try (cs, r4) <- columns r3; done ([], (n, cs)) r4
  | x :: l' => try c <- column_definition d x; try (cs, k) <- table_items d l'; Some (c :: cs, k)
  end.
(** COMMENT = 'text' (MySQL, Snowflake), COMMENT 'text' (Delta) *)
Definition table_option (d : dialect) (ts : list token) : option (option string) :=
  match ts with
  | [] => Some None
  | _ => try r <- kw ["COMMENT"] ts;
         try r2 <- match d with DDelta => Some r | DMySQL | DSnow => sym "=" r | _ => None end;
         try (s, r3) <- lit r2; done (Some s) r3
  end.
Definition conflict (d : dialect) (ts : list token) : option pconflict :=
  match ts with
  | [] => Some PNone
  | _ =>
    match d with
    | DMySQL => try r <- kw ["ON"; "DUPLICATE"; "KEY"; "UPDATE"] ts; try (k, r2) <- ident r; try r3 <- sym "=" r2;
                try (v, r4) <- ident r3; done (PKeepRow k v) r4
    | _ => try r <- kw ["ON"; "CONFLICT"] ts; try r2 <- sym "(" r; try (k, r3) <- ident r2; try r4 <- sym ")" r3;
           try r5 <- kw ["DO"; "NOTHING"] r4; done (PDoNothing k) r5
    end
  end.
(** SQL Server: the schema is created by a dynamic batch if sys.schemas has no row of that name *)
Definition ms_schema (ts : list token) : option pstmt :=
  try r <- kw ["IF"; "NOT"; "EXISTS"] ts; try r <- sym "(" r; try r <- kw ["SELECT"] r; try r <- sym "*" r;
  try r <- kw ["FROM"; "SYS"] r; try r <- sym "." r; try r <- kw ["SCHEMAS"; "WHERE"; "NAME"] r; try r <- sym "=" r;
  try (n, r) <- lit r; try r <- sym ")" r; try r <- kw ["EXEC"] r; try r <- sym "(" r; try (batch, r) <- lit r;
  try r <- sym ")" r;
  try b <- lex DMSSQL batch; try b <- kw ["CREATE"; "SCHEMA"] b; try (m, b) <- ident b;
  if String.eqb n m then match b with [] => done (PCreateSchema true n) r | _ => None end else None.
(** UPDATE table data_table ...: the two spellings *)
Definition update_lookup (d : dialect) (ts : list token) : option pstmt :=
  try (q, r) <- object_name ts; try r <- kw ["DATA_TABLE"] r;
  match d with
  | DMySQL =>
      try r <- kw ["JOIN"] r; try (ref, r) <- object_name r; try r <- kw ["ENUM_TABLE"; "ON"; "DATA_TABLE"] r;
      try r <- sym "." r; try (oc, r) <- ident r; try r <- sym "=" r; try r <- kw ["ENUM_TABLE"] r; try r <- sym "." r;
      try (key, r) <- ident r; try r <- kw ["SET"; "DATA_TABLE"] r; try r <- sym "." r; try (nc, r) <- ident r;
      try r <- sym "=" r; try r <- kw ["ENUM_TABLE"] r; try r <- sym "." r; try (get, r) <- ident r;
      done (PUpdateLookup q nc oc ref key get false) r
  | _ =>
      try r <- kw ["SET"] r; try (nc, r) <- ident r; try r <- sym "=" r; try r <- kw ["ENUM_TABLE"] r; try r <- sym "." r;
      try (get, r) <- ident r; try r <- kw ["FROM"] r; try (ref, r) <- object_name r; try r <- kw ["ENUM_TABLE"; "WHERE"; "DATA_TABLE"] r;
      try r <- sym "." r; try (oc, r) <- ident r; try r <- sym ":" r; try r <- sym ":" r; try r <- kw ["VARCHAR"] r;
      try r <- sym "=" r; try r <- kw ["ENUM_TABLE"] r; try r <- sym "." r; try (key, r) <- ident r;
      done (PUpdateLookup q nc oc ref key get true) r
  end.

Definition statement (d : dialect) (ts : list token) : option pstmt :=
  match kw ["CREATE"; "SCHEMA"; "IF"; "NOT"; "EXISTS"] ts with
  | Some r => try (n, r2) <- ident r; done (PCreateSchema true n) r2
  | None =>
  match kw ["CREATE"; "SCHEMA"] ts with
  | Some r => try (n, r2) <- ident r; done (PCreateSchema false n) r2
  | None =>
  match kw ["DROP"; "SCHEMA"; "IF"; "EXISTS"] ts with
  | Some r => try (n, r2) <- ident r; try r3 <- kw ["CASCADE"] r2; done (PDropSchema true true n) r3
  | None =>
  match kw ["DROP"; "SCHEMA"] ts with
  | Some r => try (n, r2) <- ident r; done (PDropSchema false false n) r2
  | None =>
  match kw ["CREATE"; "TYPE"] ts with
  | Some r => try (q, r2) <- object_name r;
      match kw ["AS"; "ENUM"] r2 with
      | Some r3 => try r4 <- sym "(" r3;
                   match sym ")" r4 with
                   | Some r5 => done (PCreateEnum q []) r5
                   | None => try (vs, r5) <- lits r4; done (PCreateEnum q vs) r5 end
      | None => try r3 <- kw ["AS"] r2; try r4 <- sym "(" r3; try (a, r5) <- inside 0 r4;
                try ms <- each member (commas 0 a); done (PCreateStruct q ms) r5
      end
  | None =>
  match kw ["DROP"; "TYPE"] ts with
  | Some r => try (q, r2) <- object_name r; done (PDropType q) r2
  | None =>
  match kw ["ALTER"; "TYPE"] ts with
  | Some r => try (q, r2) <- object_name r;
      match kw ["RENAME"; "TO"] r2 with
      | Some r3 => try (n, r4) <- ident r3; done (PRenameType q n) r4
      | None => match kw ["ADD"; "VALUE"] r2 with
                | Some r3 => try (v, r4) <- lit r3; done (PAddValue q v) r4
                | None => try l <- each struct_action (commas 0 r2); Some (PAlterStruct q l) end
      end
  | None =>
  match kw ["CREATE"; "TABLE"] ts with
  | Some r => try (q, r2) <- object_name r; try r3 <- sym "(" r2; try (a, r4) <- inside 0 r3;
              try (cs, (pn, pk)) <- table_items d (commas 0 a); try cm <- table_option d r4;
              Some (PCreateTable q cs pn pk cm)
  | None =>
  match kw ["DROP"; "TABLE"] ts with
  | Some r => try (q, r2) <- object_name r; done (PDropTable q) r2
  | None =>
  match kw ["ALTER"; "TABLE"] ts with
  | Some r => try (q, r2) <- object_name r;
      match (match d with DMySQL => kw ["COMMENT"] r2 | _ => None end) with
      | Some r3 => try r4 <- sym "=" r3; try (s, r5) <- lit r4; done (PTableComment q s) r5
      | None => try l <- actions d r2; Some (PAlterTable q l) end
  | None =>
  match kw ["COMMENT"; "ON"; "TABLE"] ts with
  | Some r => try (q, r2) <- object_name r; try r3 <- kw ["IS"] r2; try c <- comment_text r3; Some (PCommentTable q c)
  | None =>
  match kw ["COMMENT"; "ON"; "COLUMN"] ts with
  | Some r => try (q, c, r2) <- name_dot r; try r3 <- kw ["IS"] r2; try t <- comment_text r3; Some (PCommentColumn q c t)
  | None =>
  match kw ["COMMENT"; "ON"; "TYPE"] ts with
  | Some r => try (q, r2) <- object_name r; try r3 <- kw ["IS"] r2; try c <- comment_text r3; Some (PCommentType q c)
  | None =>
  match kw ["INSERT"; "INTO"] ts with
  | Some r => try (q, r2) <- object_name r; try (cs, r3) <- columns r2;
      match kw ["SELECT"; "DISTINCT"] r3 with
      | Some r4 => match cs with
                   | [c] => try (sc, r5) <- ident r4; try r6 <- kw ["FROM"] r5; try (src, r7) <- object_name r6;
                            try oc <- conflict d r7; Some (PInsertDistinct q c src sc oc)
                   | _ => None end
      | None => try r4 <- kw ["VALUES"] r3; let (a, b) := until_on r4 in
                try rows <- each row (commas 0 a); try oc <- conflict d b; Some (PInsert q cs rows oc)
      end
  | None =>
  match kw ["UPDATE"] ts with
  | Some r => update_lookup d r
  | None => match d with DMSSQL => ms_schema ts | _ => None end
  end end end end end end end end end end end end end end end.

(** The statements that engine [d] reads in a text; [None] if it cannot read it. *)
Definition read (d : dialect) (text : string) : option (list pstmt) :=
  try ts <- lex d text; try l <- statements ts; each (statement d) l.
