(** Assumptions on the text format, and what a table of records holds. *)
From Verif Require Import PyStr Exchange.
Open Scope list_scope.

(** a name or a value that can stand in a line *)
Definition plain (s : string) : Prop := has_char TAB s = false /\ has_char LF s = false.
(** the laws of the package [tsv]; [fits t v]: the value [v] is one of type [t] *)
Definition sound {T V} (C : codec T V) (fits : T -> V -> Prop) : Prop :=
  (forall v, plain (c_write C v)) /\ (forall t v, fits t v -> c_read C t (c_write C v) = Ok v).

(** a table of records: the value in column [c] of record [i] *)
Definition in_cell {V} (columns : list string) (rows : list (list V)) (i : nat) (c : string) (v : V) : Prop :=
  exists r j, nth_error rows i = Some r /\ nth_error columns j = Some c /\ nth_error r j = Some v.
