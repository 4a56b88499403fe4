(** What it means to split a stream into batches. *)
From Coq Require Import List.
Import ListNotations.

(** [bs] cuts [l] into consecutive full batches of [size] records followed by at most one shorter,
    non-empty batch. *)
Inductive cut {R : Type} (size : nat) : list R -> list (list R) -> Prop :=
| cut_nil : cut size [] []
| cut_last b : b <> [] -> length b < size -> cut size b [b]
| cut_full b l bs : length b = size -> cut size l bs -> cut size (b ++ l) (b :: bs).
