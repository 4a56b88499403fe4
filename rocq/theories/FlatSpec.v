(** The answer of the server to a query, and tables created under namespaces. *)
From Verif Require Import PyStr QuoteModel.
Open Scope string_scope.

(** the rows of [SELECT table_name ... WHERE condition] on a server with the tables [all] *)
Definition answers (condition : string -> Prop) (all out : list string) : Prop :=
  NoDup out /\ forall t, In t out <-> In t all /\ condition t.
(** a name that can stand before a double underscore without doubt *)
Definition clean (ns : string) : Prop := ~ (exists a b, ns = a ++ "__" ++ b) /\ ~ (exists a, ns = a ++ "_").
(** a table of a namespace, or one outside of all namespaces, whose name must not look like the former *)
Definition clear_id (q : option string * string) : Prop :=
  match q with (Some ns, _) => clean ns | (None, id) => ~ (exists a b, id = a ++ "__" ++ b) end.
