(** Model of script splitting: OracleContext._execute (pysqlsync/dialect/oracle/connection.py:69-82) and
    RedshiftContext._execute (pysqlsync/dialect/redshift/connection.py:67-80). *)
From Verif Require Import PyStr.
Open Scope string_scope.

Definition SEMI : ascii := ";"%char.
(** the characters of ["\r\n\t\v ;"] *)
Definition strippable (c : ascii) : bool := in_class [CR; LF; TAB; VT; " "%char; SEMI] c.
(** [s.rstrip("\r\n\t\v ;")] *)
Fixpoint rstrip (s : string) : string :=
  match s with
  | "" => ""
  | String c r => match rstrip r with
                  | "" => if strippable c then "" else String c ""
                  | r' => String c r'
                  end
  end.
(** [$] with re.MULTILINE: at the end of the text or before a line feed *)
Definition at_eol (r : string) : bool := match r with "" => true | String c _ => Ascii.eqb c LF end.
Definition cons_first (c : ascii) (l : list string) : list string :=
  match l with [] => [String c ""] | x :: l' => String c x :: l' end.
(** [re.split(r";$", s, flags=re.MULTILINE)] *)
Fixpoint re_split (s : string) : list string :=
  match s with
  | "" => [""]
  | String c r => if Ascii.eqb c SEMI && at_eol r then "" :: re_split r else cons_first c (re_split r)
  end.
(** the arguments of the calls [cursor.execute] (as long as none of them raises) *)
Definition redshift_statements (script : string) : list string := re_split (rstrip script).
Definition oracle_statements (script : string) : list string :=
  if starts_with "BEGIN" script then [script] else re_split (rstrip script).
(** the loop stops at the first statement that the database refuses: what was executed, and whether it completed *)
Fixpoint execute_each (ok : string -> bool) (l : list string) : list string * bool :=
  match l with
  | [] => ([], true)
  | s :: r => if ok s then let (done, b) := execute_each ok r in (s :: done, b) else ([], false)
  end.
