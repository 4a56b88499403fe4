(** Specification: how Python reads source code, as far as it is made of imports, classes that have a description, assignments of constants and
    annotated fields, and assignments to the description of a member of an enumeration.  From the Python Language Reference, sections 2.1 (lines),
    2.3 (identifiers and keywords), 2.4 (literals), 7.2 (assignments), 7.11 (imports) and 8.8 (classes).  Text that is not of this form is not read. *)
From Verif Require Import PyStr PyCode.
From Verif Require Reverse.
Open Scope string_scope.
Open Scope list_scope.

(** lines *)
Fixpoint lines (s : string) : list string :=
  match s with
  | "" => [""]
  | String c r => if Ascii.eqb c LF then "" :: lines r else match lines r with l :: ls => String c l :: ls | [] => [] end
  end.

(** names *)
Definition name_char (c : ascii) : bool :=
  let n := nat_of_ascii c in
  (Nat.leb 48 n && Nat.leb n 57) || (Nat.leb 65 n && Nat.leb n 90) || Nat.eqb n 95 || (Nat.leb 97 n && Nat.leb n 122) || Nat.leb 128 n.
Definition identifier (s : string) : bool :=
  match s with
  | "" => false
  | String c _ => negb (is_digit c) && negb (any_char (fun x => negb (name_char x)) s) && negb (str_in s Reverse.keywords)
  end.
Fixpoint name_span (s : string) : string * string :=
  match s with
  | String c r => if name_char c then let (n, t) := name_span r in (String c n, t) else ("", s)
  | "" => ("", "")
  end.
Definition name_of (s : string) : option (string * string) := let (n, t) := name_span s in if identifier n then Some (n, t) else None.

(** constants *)
Definition hex_value (c : ascii) : option nat :=
  let n := nat_of_ascii c in
  if Nat.leb 48 n && Nat.leb n 57 then Some (n - 48) else if Nat.leb 97 n && Nat.leb n 102 then Some (n - 87) else if Nat.leb 65 n && Nat.leb n 70 then Some (n - 55) else None.
Definition add (c : ascii) (x : option string) : option string := match x with Some s => Some (String c s) | None => None end.
(** characters that end a line, and the one that source code must not contain *)
Definition breaks (c : ascii) : bool := Ascii.eqb c LF || Ascii.eqb c CR || Ascii.eqb c NUL.
(** the text after the opening quotation mark [q], up to the end *)
Fixpoint quoted (q : ascii) (s : string) : option string :=
  match s with
  | "" => None
  | String c r =>
      if Ascii.eqb c q then match r with "" => Some "" | _ => None end
      else if breaks c then None
      else if Ascii.eqb c BS then
        match r with
        | String e r1 =>
            if Ascii.eqb e BS || Ascii.eqb e QT || Ascii.eqb e DQ then add e (quoted q r1)
            else if Ascii.eqb e "n" then add LF (quoted q r1)
            else if Ascii.eqb e "r" then add CR (quoted q r1)
            else if Ascii.eqb e "t" then add TAB (quoted q r1)
            else if Ascii.eqb e "x" then
              match r1 with
              | String a (String b r2) =>
                  match hex_value a, hex_value b with
                  | Some x, Some y => if Nat.ltb (16 * x + y) 128 then add (ch (16 * x + y)) (quoted q r2) else None
                  | _, _ => None
                  end
              | _ => None
              end
            else None
        | "" => None
        end
      else add c (quoted q r)
  end.
Definition natural (s : string) : option Z := match s with "" => None | _ => match str_to_n s with Some n => Some (Z.of_N n) | None => None end end.
Definition read_literal (s : string) : option literal :=
  match s with
  | "" => None
  | String c r =>
      if Ascii.eqb c QT || Ascii.eqb c DQ then match quoted c r with Some t => Some (LStr t) | None => None end
      else if String.eqb s "None" then Some LNone
      else if String.eqb s "True" then Some (LBool true)
      else if String.eqb s "False" then Some (LBool false)
      else if Ascii.eqb c "-" then match natural r with Some z => Some (LInt (- z)) | None => None end
      else match natural s with Some z => Some (LInt z) | None => None end
  end.

(** An annotation ends at the first [=] that is in no brackets and no text, or at the end of the line.  *)
Inductive where_ : Type := Outside (depth : nat) | Within (depth : nat) (q : ascii) | Escaped (depth : nat) (q : ascii).
Definition move (w : where_) (c : ascii) : option where_ :=
  if breaks c then None else
  match w with
  | Escaped n q => Some (Within n q)
  | Within n q => Some (if Ascii.eqb c q then Outside n else if Ascii.eqb c BS then Escaped n q else w)
  | Outside n =>
      if Ascii.eqb c QT || Ascii.eqb c DQ then Some (Within n c)
      else if Ascii.eqb c "(" || Ascii.eqb c "[" || Ascii.eqb c "{" then Some (Outside (S n))
      else if Ascii.eqb c ")" || Ascii.eqb c "]" || Ascii.eqb c "}" then match n with O => None | S m => Some (Outside m) end
      else if Ascii.eqb c "#" then None
      else Some w
  end.
Fixpoint annotation (w : where_) (s : string) : option (string * string) :=
  match s with
  | "" => match w with Outside O => Some ("", "") | _ => None end
  | String c r =>
      if (match w with Outside O => Ascii.eqb c "=" | _ => false end) then Some ("", s)
      else match move w c with
           | Some w' => match annotation w' r with Some (a, b) => Some (String c a, b) | None => None end
           | None => None
           end
  end.
(** without the space at its end *)
Fixpoint chop (s : string) : option string :=
  match s with
  | "" => None
  | String c "" => if Ascii.eqb c " " then Some "" else None
  | String c r => add c (chop r)
  end.

(** what may be in a class *)
Inductive item : Type := Text (s : string) | Assign (n : string) (v : literal) | Field (n : string) (annotation : string) (v : option literal).
Definition read_item (s : string) : option item :=
  match s with
  | "" => None
  | String c _ =>
      if Ascii.eqb c QT || Ascii.eqb c DQ then match read_literal s with Some (LStr t) => Some (Text t) | _ => None end
      else match name_of s with
           | Some (n, r) =>
               match drop_prefix " = " r with
               | Some v => match read_literal v with Some v => Some (Assign n v) | None => None end
               | None =>
                   match drop_prefix ": " r with
                   | Some t => match annotation (Outside 0) t with
                               | Some (a, "") => Some (Field n a None)
                               | Some (a, b) => match chop a, drop_prefix "= " b with
                                                | Some a, Some v => match read_literal v with Some v => Some (Field n a (Some v)) | None => None end
                                                | _, _ => None
                                                end
                               | None => None
                               end
                   | None => None
                   end
               end
           | None => None
           end
  end.

Inductive line : Type :=
| Blank | Decorator (s : string) | Class (n : string) (base : option string) | Inside (i : item) | SetDoc (c m : string) (doc : string) | Import (names : list string).
Fixpoint up_to (p s : string) : option (string * string) :=
  match drop_prefix p s with
  | Some r => Some ("", r)
  | None => match s with "" => None | String c r => match up_to p r with Some (a, b) => Some (String c a, b) | None => None end end
  end.
Fixpoint commas (fuel : nat) (s : string) : list string :=
  match fuel with
  | O => [s]
  | S k => match up_to ", " s with Some (a, b) => a :: commas k b | None => [s] end
  end.
Definition read_line (l : string) : option line :=
  if String.eqb l "" then Some Blank else
  match drop_prefix "    " l with
  | Some t => match read_item t with Some i => Some (Inside i) | None => None end
  | None =>
  match drop_prefix "@" l with
  | Some d => Some (Decorator d)
  | None =>
  match drop_prefix "class " l with
  | Some t => match name_of t with
              | Some (n, ":") => Some (Class n None)
              | Some (n, r) => match drop_prefix "(" r with
                               | Some b => match up_to "):" b with Some (b, "") => Some (Class n (Some b)) | _ => None end
                               | None => None
                               end
              | None => None
              end
  | None =>
  match drop_prefix "import " l with
  | Some m => Some (Import [m])
  | None =>
  match drop_prefix "from " l with
  | Some t => match up_to " import " t with Some (_, ns) => Some (Import (commas (String.length ns) ns)) | None => None end
  | None =>
      match name_of l with
      | Some (c, r) => match drop_prefix "." r with
                       | Some r => match name_of r with
                                   | Some (m, r) => match drop_prefix ".__doc__ = " r with
                                                    | Some v => match read_literal v with Some (LStr d) => Some (SetDoc c m d) | _ => None end
                                                    | None => None
                                                    end
                                   | None => None
                                   end
                       | None => None
                       end
      | None => None
      end
  end end end end end.

(** A class that is there when the code has been run: decorator, name, base, description, assignments and fields in order, descriptions of members *)
Record pyclass : Type := PyClass {
  p_decorator : option string; p_name : string; p_base : option string; p_doc : option string; p_items : list item; p_docs : list (string * string) }.
(** names that are imported; classes, the last one first; a decorator that waits for its class; whether the class is still open *)
Record state : Type := State { s_names : list string; s_classes : list pyclass; s_decorator : option string; s_open : bool }.
Definition start : state := State [] [] None false.
Definition run_line (x : line) (s : state) : option state :=
  match x with
  | Blank => Some s
  | Import ns => match s_decorator s with None => Some (State (s_names s ++ ns) (s_classes s) None false) | Some _ => None end
  | Decorator d => match s_decorator s with None => Some (State (s_names s) (s_classes s) (Some d) false) | Some _ => None end
  | Class n b => Some (State (s_names s) (PyClass (s_decorator s) n b None [] [] :: s_classes s) None true)
  | Inside i =>
      match s_open s, s_classes s with
      | true, k :: ks =>
          let k' := match i, p_doc k, p_items k with
                    | Text d, None, [] => PyClass (p_decorator k) (p_name k) (p_base k) (Some d) [] (p_docs k)
                    | _, _, _ => PyClass (p_decorator k) (p_name k) (p_base k) (p_doc k) (p_items k ++ [i]) (p_docs k)
                    end in
          Some (State (s_names s) (k' :: ks) None true)
      | _, _ => None
      end
  | SetDoc c m d =>
      match s_decorator s, s_classes s with
      | None, k :: ks => if String.eqb (p_name k) c then Some (State (s_names s) (PyClass (p_decorator k) (p_name k) (p_base k) (p_doc k) (p_items k) (p_docs k ++ [(m, d)]) :: ks) None false) else None
      | _, _ => None
      end
  end.
(** A text between triples of quotation marks that begins after the first line and ends before the last: one line of it. *)
Definition triple : string := String DQ (String DQ (str1 DQ)).
Fixpoint unescape (s : string) : option string :=
  match s with
  | "" => Some ""
  | String c r =>
      if breaks c then None
      else if Ascii.eqb c BS then
        match r with
        | String e r1 =>
            if Ascii.eqb e BS || Ascii.eqb e QT || Ascii.eqb e DQ then add e (unescape r1)
            else if Ascii.eqb e "n" then add LF (unescape r1)
            else if Ascii.eqb e "r" then add CR (unescape r1)
            else if Ascii.eqb e "t" then add TAB (unescape r1)
            else None
        | "" => None
        end
      else add c (unescape r)
  end.
Definition text_line (s : string) : option string := match up_to triple s with Some _ => None | None => unescape s end.
Fixpoint run (ls : list string) (s : state) : option state :=
  match ls with
  | [] => Some s
  | l :: r =>
      if String.eqb l ("    " ++ triple) then
        (fix text (t : string) (ls : list string) : option state :=
           match ls with
           | [] => None
           | l :: r => if String.eqb l ("    " ++ triple) then match run_line (Inside (Text (t ++ "    "))) s with Some s' => run r s' | None => None end
                       else match text_line l with Some x => text (t ++ x ++ NL)%string r | None => None end
           end) NL r
      else match read_line l with Some x => match run_line x s with Some s' => run r s' | None => None end | None => None end
  end.
(** a class has at least one statement *)
Definition has_body (k : pyclass) : bool := match p_doc k, p_items k with None, [] => false | _, _ => true end.
(** the names that a module imports, and its classes *)
Definition read_python (text : string) : option (list string * list pyclass) :=
  match run (lines text) start with
  | Some s => match s_decorator s with None => if forallb has_body (s_classes s) then Some (s_names s, rev (s_classes s)) else None | Some _ => None end
  | None => None
  end.

(** ** The classes that code is written for *)
Definition constant (v : literal) : Prop := match v with LOther _ => False | _ => True end.
(** [m.__doc__] of a member of an enumeration: its own description, or that of the class *)
Definition member_doc (k : pyclass) (m : string) : option string :=
  match find (fun p => String.eqb (fst p) m) (p_docs k) with Some p => Some (snd p) | None => p_doc k end.
Record enum_ok (e : enum_class) : Prop := {
  eo_name : identifier (e_name e) = true;
  eo_some : e_members e <> [];
  eo_members : forall m v d, In (m, v, d) (e_members e) -> identifier m = true /\ constant v /\ d <> Some "" /\ (d = None -> e_doc e = None);
  eo_doc : e_doc e <> Some "";
  eo_distinct : NoDup (map (fun m => fst (fst m)) (e_members e)) }.
(** the class that Python makes of the code is the one that the code was written for *)
Record same_enum (e : enum_class) (k : pyclass) : Prop := {
  se_decorator : p_decorator k = Some "enum.unique";
  se_name : p_name k = e_name e;
  se_base : p_base k = Some "enum.Enum";
  se_doc : p_doc k = e_doc e;
  se_members : p_items k = map (fun m => Assign (fst (fst m)) (snd (fst m))) (e_members e);
  se_docs : forall m v d, In (m, v, d) (e_members e) -> member_doc k m = d }.

(** the text of a type: brackets and quotation marks are closed, and no [=] is outside of brackets *)
Definition type_text (t : string) : Prop := annotation (Outside 0) t = Some (t, "") /\ has_char LF t = false.
Record field_ok (f : code_field) : Prop := {
  fo_name : identifier (cf_name f) = true;
  fo_type : type_text (cf_type f);
  fo_default : forall v, cf_default f = Some v -> constant v;
  fo_plain : cf_factory f = None /\ cf_metadata f = None }.
(** The description: that of several lines begins after a line feed, and the quotation marks that end it are indented ([inspect.getdoc] drops both). *)
Fixpoint block (ls : list string) : string := match ls with [] => "" | l :: r => (l ++ NL ++ block r)%string end.
Definition doc_text (d : description) : option string :=
  match d with NoDoc => None | OneLine s => Some s | ManyLines ls => Some (NL ++ block ls ++ "    ")%string end.
(** a line without backslashes, control characters that end lines, and triples of quotation marks *)
Definition description_line (l : string) : Prop :=
  has_char BS l = false /\ has_char LF l = false /\ has_char CR l = false /\ has_char NUL l = false /\ forall a b, l <> (a ++ triple ++ b)%string.
(** a class variable: not a name of the form [__name__], and not the default of a field *)
Definition special (s : string) : Prop := exists c r, s = ("__" ++ String c r ++ "__")%string.
Definition variables_of (d : data_class) (vs : list (string * literal)) : Prop :=
  exists keep, vs = filter keep (d_members d) /\ forall v, keep v = true <-> ~ special (fst v) /\ ~ In (fst v) (map cf_name (d_fields d)).
Record data_ok (d : data_class) : Prop := {
  do_name : identifier (d_name d) = true;
  do_some : doc_text (d_doc d) <> None \/ d_fields d <> [];
  do_doc : forall ls, d_doc d = ManyLines ls -> Forall description_line ls;
  do_members : forall n v, In (n, v) (d_members d) -> identifier n = true /\ constant v;
  do_fields : Forall field_ok (d_fields d) }.
Record same_data (d : data_class) (k : pyclass) : Prop := {
  sd_decorator : p_decorator k = Some "dataclasses.dataclass";
  sd_name : p_name k = d_name d;
  sd_base : p_base k = None;
  sd_doc : p_doc k = doc_text (d_doc d);
  sd_items : exists vs, variables_of d vs /\
               p_items k = map (fun v => Assign (fst v) (snd v)) vs ++ map (fun f => Field (cf_name f) (cf_type f) (cf_default f)) (d_fields d);
  sd_docs : p_docs k = [] }.
Inductive same_class : a_class -> pyclass -> Prop := sc_enum e k : same_enum e k -> same_class (AEnum e) k | sc_data d k : same_data d k -> same_class (AData d) k.
Definition class_ok (c : a_class) : Prop := match c with AEnum e => enum_ok e | AData d => data_ok d | AOther _ => False end.
