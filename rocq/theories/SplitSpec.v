(** Vocabulary for C44. *)
From Verif Require Import PyStr.
Open Scope string_scope.

(** a line of the text (other than the last) ends in a semicolon *)
Definition has_line_ending_in_semicolon (s : string) : Prop := exists a b, s = a ++ ";" ++ NL ++ b.
(** the text is not empty and its last character is none of CR, LF, TAB, VT, blank, semicolon *)
Definition ends_in_visible (s : string) : Prop :=
  exists p c, s = p ++ String c "" /\ ~ In c ["013"%char; "010"%char; "009"%char; "011"%char; " "%char; ";"%char].
(** a script: the statements, each terminated by a semicolon, one per line *)
Definition script (bodies : list string) : string := join_str NL (map (fun b => b ++ ";") bodies).
(** a statement, possibly preceded by the line feed that separated it from the previous one *)
Definition same_statement (got want : string) : Prop := got = want \/ got = NL ++ want.
