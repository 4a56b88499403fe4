(** Model of [thread_dispatch], pysqlsync/util/dispatch.py:12-31, which every blocking call of the drivers of Oracle, SQL Server, Redshift and
    others goes through: [invoke] submits the function to a pool of one thread of its own, awaits the result and leaves the pool, which waits for its
    thread ([ThreadPoolExecutor.__exit__] is [shutdown(wait=True)] of the Python runtime; it is called on the thread of the event loop, which
    does nothing else until then).

    Tasks are numbered; what they do between calls is arbitrary.  A task may be cancelled whenever the event loop is free ([Task.cancel]): a call that
    no thread has begun is dropped ([Future.cancel] of concurrent.futures succeeds), one that has begun goes on and the pool waits for it; the task may
    then go on as it likes (the code of [finally], [async with]).  A function ends with an outcome: a value or an exception.
    Not modelled: interpreter shutdown, a loop that is stopped. *)
From Verif Require Import PyStr.
Open Scope list_scope.

Section Dispatch.
Variables call outcome : Type.

(** What can be observed of a task: it makes a call, a thread begins a call, it ends it, the coroutine that awaits it gets the outcome, or [CancelledError]. *)
Inductive event : Type := Call (c : call) | Begin (c : call) | End (c : call) (o : outcome) | Got (o : outcome) | Cancelled.

(** Where a task is: in its own code; call submitted (26-29); a thread is at work; it has ended; cancelled while a thread is at work, in [__exit__] of the pool. *)
Inductive place : Type := Own | Submitted (c : call) | Working (c : call) | Ended (c : call) (o : outcome) | Leaving (c : call).
Record state : Type := State { places : nat -> place; log : list (nat * event) }.
Definition move (s : state) (t : nat) (p : place) (e : list event) : state :=
  State (fun u => if Nat.eqb u t then p else places s u) (log s ++ map (fun x => (t, x)) e).
(** the event loop is at work in no [__exit__] *)
Definition free (s : state) : Prop := forall t c, places s t <> Leaving c.

Inductive step : state -> state -> Prop :=
(** steps of the event loop *)
| st_submit s t c : free s -> places s t = Own -> step s (move s t (Submitted c) [Call c])
| st_resume s t c o : free s -> places s t = Ended c o -> step s (move s t Own [Got o])
| st_cancel_own s t : free s -> places s t = Own -> step s (move s t Own [Cancelled])
| st_cancel_submitted s t c : free s -> places s t = Submitted c -> step s (move s t Own [Cancelled])
| st_cancel_working s t c : free s -> places s t = Working c -> step s (move s t (Leaving c) [])
| st_cancel_ended s t c o : free s -> places s t = Ended c o -> step s (move s t Own [Cancelled])
(** steps of the threads *)
| st_begin s t c : places s t = Submitted c -> step s (move s t (Working c) [Begin c])
| st_end s t c o : places s t = Working c -> step s (move s t (Ended c o) [End c o])
| st_end_leaving s t c o : places s t = Leaving c -> step s (move s t Own [End c o; Cancelled]).
Definition start : state := State (fun _ => Own) [].
Inductive reachable : state -> Prop := re_start : reachable start | re_step s s' : reachable s -> step s s' -> reachable s'.
End Dispatch.
Arguments Call {call outcome}. Arguments Begin {call outcome}. Arguments End {call outcome}. Arguments Got {call outcome}. Arguments Cancelled {call outcome}.
Arguments Own {call outcome}. Arguments Working {call outcome}. Arguments Submitted {call outcome}. Arguments Ended {call outcome}. Arguments Leaving {call outcome}.
Arguments places {call outcome}. Arguments log {call outcome}. Arguments reachable {call outcome}. Arguments start {call outcome}. Arguments step {call outcome}.
Arguments move {call outcome}. Arguments free {call outcome}. Arguments State {call outcome}.
