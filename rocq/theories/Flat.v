(** Model of namespace discovery for engines without schemas: formation/discovery.py:384-427 ([get_namespace_flat], used
    by MySQL), dialect/oracle/discovery.py:214-237 ([_get_namespace]), and of [drop_schema]: dialect/mysql/connection.py:
    118-130, dialect/oracle/connection.py:144-160. *)
From Verif Require Import PyStr QuoteModel QuoteSpec.
Open Scope string_scope.

(** the pattern that the server reads from the literal of the query, [like_literal] *)
Definition like_pattern_of (lit : string) : option string :=
  match sql_literal (lit ++ " ") with Some (p, _) => Some p | None => None end.
(** the condition on the names of tables: 397-402, and 215-221 *)
Definition in_namespace (ns : option string) (t : string) : Prop :=
  match ns with
  | Some n => exists p, like_pattern_of (like_literal n) = Some p /\ like "~" p t
  | None => ~ like "~" "%~_~_%" t
  end.
(** the further condition of Oracle, [table_name NOT LIKE '%$%'], 227 (those on owner, tablespace and status are not
    modelled: every table belongs to the user and is a plain table) *)
Definition oracle_visible (t : string) : Prop := has_char "$" t = false.

(** identifiers of the tables, given the names that the query returned.  MySQL, 410-421: the prefix is removed and the
    identifier is built from the two parts; Oracle: [split_composite_id] *)
Definition mysql_ids (ns : option string) (names : list string) : list qid :=
  map (fun t => match ns with Some n => Prefixed (Some n) (remove_prefix (n ++ "__") t) | None => Prefixed None t end) names.
Definition oracle_ids (names : list string) : list qid :=
  map (fun t => let '(n, i) := split_composite_id t in Prefixed n i) names.
(** [drop_schema] drops the tables whose names the query returns *)
Definition dropped (ns : string) (t : string) : Prop := in_namespace (Some ns) t.
