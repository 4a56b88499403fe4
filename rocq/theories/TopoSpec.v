(** Specification: what an order of dependencies is. *)
From Coq Require Import List String Relations.
Import ListNotations.

Section Spec.
  Variable succ : string -> list string.
  (** [a] depends on [b] *)
  Definition edge (a b : string) : Prop := In b (succ a) /\ b <> a.
  (** some node depends on itself through other nodes *)
  Definition cyclic (nodes : list string) : Prop := exists n, In n nodes /\ clos_trans _ edge n n.
  (** every node once, and everything a node depends on before it *)
  Definition topo_order (nodes l : list string) : Prop :=
    NoDup l /\ (forall n, In n l <-> In n nodes)
    /\ forall l1 n l2, l = l1 ++ n :: l2 -> forall m, edge n m -> In m l1.
End Spec.
