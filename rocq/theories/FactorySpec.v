(** What it means that rows tell about a set of constraints. *)
From Verif Require Import PyStr QuoteModel Types Objects Factory.
Open Scope list_scope.

(** [rows] is an interleaving of the columns of the named groups: names are distinct, no group is empty, the rows of
    each group give its members in order, and there are no other rows *)
Definition tells {A} (rows : list (string * A)) (groups : list (string * list A)) : Prop :=
  NoDup (map fst groups) /\
  (forall n cs, In (n, cs) groups -> cs <> [] /\ map snd (filter (fun r => String.eqb (fst r) n) rows) = cs) /\
  (forall r, In r rows -> In (fst r) (map fst groups)).

Definition as_row (r : frow) : string * (string * string) := (f_name r, (f_source r, f_target r)).
(** rows of one constraint point to one table *)
Definition one_target (rows : list frow) : Prop :=
  forall r s, In r rows -> In s rows -> f_name r = f_name s -> f_table r = f_table s.
