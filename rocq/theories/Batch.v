(** Model of the record batching of pysqlsync/base.py:695-745 ([IterableDataSource.batches] and
    [AsyncIterableDataSource.batches], which have the same body; the latter only awaits each record). *)
From Verif Require Import PyStr.

(** base.py:67 [BATCH_SIZE] *)
Definition BATCH_SIZE : N := 100000%N.

Section Batch.
  Context {R : Type} (size : nat).
  (** the loop of 710-719: [rows] is the list being filled, in order *)
  Fixpoint batch_loop (rows : list R) (records : list R) : list (list R) :=
    match records with
    | [] => match rows with [] => [] | _ => [rows] end
    | r :: rest =>
        let rows := (rows ++ [r])%list in
        if Nat.leb size (length rows) then rows :: batch_loop [] rest else batch_loop rows rest
    end.
  Definition batches (records : list R) : list (list R) := batch_loop [] records.
End Batch.
