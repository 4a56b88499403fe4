(** Specification of blocking calls: for a single task they are like calls of synchronous code. *)
From Verif Require Import PyStr Dispatch.
Open Scope list_scope.
Section Spec.
Context {call outcome : Type}.
Notation event := (event call outcome).

(** the events of a task *)
Definition of_task (t : nat) (l : list (nat * event)) : list event := map snd (filter (fun e => Nat.eqb (fst e) t) l).
(** One call after the other, each of which has been made, begun, ended, and given its outcome to the one who called, unless it was cancelled: then it has ended before the
    one who called is told so, or has never begun.  A task may also be told between calls. *)
Inductive rounds : list event -> Prop :=
| ro_none : rounds []
| ro_call l c o : rounds l -> rounds (l ++ [Call c; Begin c; End c o; Got o])
| ro_late l c o : rounds l -> rounds (l ++ [Call c; Begin c; End c o; Cancelled])
| ro_never l c : rounds l -> rounds (l ++ [Call c; Cancelled])
| ro_between l : rounds l -> rounds (l ++ [Cancelled]).
(** the call that is being made *)
Inductive under_way : list event -> Prop := uw_none : under_way [] | uw_made c : under_way [Call c] | uw_begun c : under_way [Call c; Begin c] | uw_ended c o : under_way [Call c; Begin c; End c o].
(** a thread is at work for the task *)
Definition busy (t : nat) (l : list (nat * event)) : Prop := exists m c, of_task t l = m ++ [Begin c].
End Spec.
