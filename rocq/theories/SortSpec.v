(** Specification: references between namespaces. *)
From Verif Require Import PyStr QuoteModel Types Objects TopoSpec.
From Coq Require Import List String Relations Permutation.
Import ListNotations.

(** A namespace refers to an object: through the declared type of a member or column (an array or inline
    record of a user-defined type does not count: see [array_ref_ignored] in PropsSort.v), a foreign key or a
    discriminated key. *)
Inductive uses (n : namespace) (q : qid) : Prop :=
| uses_member x m : In x (n_structs n) -> In m (s_members x) -> user_ref (m_type m) = Some q -> uses n q
| uses_column x c : In x (n_tables n) -> In c (t_columns x) -> user_ref (c_type c) = Some q -> uses n q
| uses_foreign x k cs rc : In x (n_tables n) -> In (CForeign k cs q rc) (t_constraints x) -> uses n q
| uses_discr x k cs refs rc : In x (n_tables n) -> In (CDiscr k cs refs) (t_constraints x) -> In (q, rc) refs -> uses n q.

(** namespace [a] of the catalog depends on another namespace [b] of it *)
Definition depends (c : catalog) (a b : string) : Prop :=
  a <> b /\ exists x y q, In x c /\ In y c /\ n_name x = a /\ n_name y = b /\ uses x q /\ scope_id q = Some b.

Definition sorted_catalog (c c' : catalog) : Prop :=
  Permutation c c' /\
  forall l1 n l2, c' = l1 ++ n :: l2 -> forall b, depends c (n_name n) b -> exists m, In m l1 /\ n_name m = b.
Definition circular (c : catalog) : Prop := exists n, clos_trans _ (depends c) n n.
