(** C69: blocking calls of one task never overlap, whatever the schedule and whatever is cancelled. *)
From Verif Require Import PyStr Dispatch DispatchSpec.
Open Scope list_scope.

Section Proofs.
Context {call outcome : Type}.
Notation state := (Dispatch.state call outcome).
Notation event := (Dispatch.event call outcome).
Lemma of_task_app t (a b : list (nat * event)) : of_task t (a ++ b) = of_task t a ++ of_task t b.
Proof. unfold of_task. now rewrite filter_app, map_app. Qed.
Lemma of_task_same t (e : list event) : of_task t (map (fun x => (t, x)) e) = e.
Proof. unfold of_task. induction e as [|x e IH]; [reflexivity|]. cbn [map filter fst]. rewrite Nat.eqb_refl. cbn [map snd]. now rewrite IH. Qed.
Lemma of_task_other t u (e : list event) : u <> t -> of_task u (map (fun x => (t, x)) e) = [].
Proof. intros N. unfold of_task. induction e as [|x e IH]; [reflexivity|]. cbn [map filter fst]. destruct (Nat.eqb_spec t u) as [E|_]; [now destruct N|exact IH]. Qed.
Definition pending (p : place call outcome) : list event :=
  match p with Own => [] | Submitted c => [Call c] | Working c | Leaving c => [Call c; Begin c] | Ended c o => [Call c; Begin c; End c o] end.
Definition inv (s : state) : Prop := forall t, exists l, rounds l /\ of_task t (log s) = l ++ pending (places s t).
Lemma inv_move s t p e : inv s -> (forall l, rounds l -> of_task t (log s) = l ++ pending (places s t) -> exists m, rounds m /\ l ++ pending (places s t) ++ e = m ++ pending p) -> inv (move s t p e).
Proof.
  intros H X u. unfold move. cbn [places log]. rewrite of_task_app. destruct (Nat.eqb_spec u t) as [->|N].
  - destruct (H t) as (l & R & E). rewrite of_task_same, E, <- app_assoc. destruct (X l R E) as (m & Rm & Em). exists m. auto.
  - rewrite of_task_other by exact N. rewrite app_nil_r. apply H.
Qed.
Lemma inv_step s s' : inv s -> step s s' -> inv s'.
Proof.
  intros H S. destruct S as [s t c _ P|s t c o _ P|s t _ P|s t c _ P|s t c _ P|s t c o _ P|s t c P|s t c o P|s t c o P]; apply inv_move; try exact H; rewrite P; cbn [pending app]; intros l R _.
  - exists l. auto.
  - exists (l ++ [Call c; Begin c; End c o; Got o]). split; [now constructor|now rewrite app_nil_r].
  - exists (l ++ [Cancelled]). split; [now constructor|now rewrite app_nil_r].
  - exists (l ++ [Call c; Cancelled]). split; [now constructor|now rewrite app_nil_r].
  - exists l. auto.
  - exists (l ++ [Call c; Begin c; End c o; Cancelled]). split; [now constructor|now rewrite app_nil_r].
  - exists l. auto.
  - exists l. auto.
  - exists (l ++ [Call c; Begin c; End c o; Cancelled]). split; [now constructor|now rewrite app_nil_r].
Qed.
Lemma inv_all s : reachable s -> inv s.
Proof. induction 1 as [|s s' _ IH S]; [intros t; exists []; split; [constructor|reflexivity]|now apply (inv_step s)]. Qed.
Lemma last_of (l : list event) : rounds l -> forall m c, l <> m ++ [Begin c].
Proof. intros R m c E. destruct R as [|l k o _|l k o _|l k _|l _]; [now destruct m| | | |]; apply (f_equal (@rev _)) in E; rewrite !rev_app_distr in E; discriminate E. Qed.

(** The calls of a task come one after the other, each gives its caller its own outcome, and while the task runs code of its own, none of them is under way,
    also when the task goes on after a cancellation. *)
Theorem C69_one_after_the_other : forall (s : state) t, reachable s ->
  exists l u, of_task t (log s) = l ++ u /\ rounds l /\ under_way u /\ (places s t = Own -> u = []).
Proof.
  intros s t H. destruct (inv_all s H t) as (l & R & E). exists l, (pending (places s t)). repeat split; try assumption; [destruct (places s t); constructor|now intros ->].
Qed.
Theorem C69_idle_in_own_code : forall (s : state) t, reachable s -> places s t = Own -> ~ busy t (log s).
Proof.
  intros s t H P (m & c & E). destruct (inv_all s H t) as (l & R & F). rewrite P in F. cbn [pending] in F. rewrite app_nil_r in F. rewrite F in E. now apply last_of in E.
Qed.
(** No call is lost: whatever state the program is in, a thread that is at work can end, and a call that was made can begin. *)
Theorem C69_never_stuck : forall (s : state) t, reachable s -> busy t (log s) -> exists c, forall o, exists s', step s s' /\
  (of_task t (log s') = of_task t (log s) ++ [End c o] \/ of_task t (log s') = of_task t (log s) ++ [End c o; Cancelled]).
Proof.
  intros s t H (m & c & E). destruct (inv_all s H t) as (l & R & F). destruct (places s t) as [|k|k|k o'|k] eqn:P; cbn [pending] in F.
  - rewrite app_nil_r in F. rewrite F in E. now apply last_of in E.
  - rewrite F in E. apply (f_equal (@rev _)) in E. rewrite !rev_app_distr in E. discriminate E.
  - exists k. intros o. eexists. split; [apply st_end; exact P|]. left. cbn [move log]. rewrite of_task_app, of_task_same. reflexivity.
  - rewrite F in E. apply (f_equal (@rev _)) in E. rewrite !rev_app_distr in E. discriminate E.
  - exists k. intros o. eexists. split; [apply st_end_leaving; exact P|]. right. cbn [move log]. rewrite of_task_app, of_task_same. reflexivity.
Qed.
Theorem C69_call_begins : forall (s : state) t m c, reachable s -> of_task t (log s) = m ++ [Call c] -> exists s', step s s' /\ of_task t (log s') = m ++ [Call c; Begin c].
Proof.
  intros s t m c H E. destruct (inv_all s H t) as (l & R & F). rewrite E in F. destruct (places s t) as [|k|k|k o'|k] eqn:P; cbn [pending] in F.
  - exfalso. rewrite app_nil_r in F. destruct R as [|l k o _|l k o _|l k _|l _]; [now destruct m| | | |]; apply (f_equal (@rev _)) in F; rewrite !rev_app_distr in F; discriminate F.
  - apply (f_equal (@rev _)) in F. rewrite !rev_app_distr in F. injection F as <- _. eexists. split; [apply st_begin; exact P|]. cbn [move log]. rewrite of_task_app, of_task_same, E, <- app_assoc. reflexivity.
  - apply (f_equal (@rev _)) in F. rewrite !rev_app_distr in F. discriminate F.
  - apply (f_equal (@rev _)) in F. rewrite !rev_app_distr in F. discriminate F.
  - apply (f_equal (@rev _)) in F. rewrite !rev_app_distr in F. discriminate F.
Qed.
End Proofs.
Print Assumptions C69_call_begins.
Print Assumptions C69_one_after_the_other.
Print Assumptions C69_idle_in_own_code.
Print Assumptions C69_never_stuck.

(** ** What does not hold *)
Ltac nobody := intros t c; cbn; repeat match goal with |- context[Nat.eqb t ?n] => destruct (Nat.eqb t n) end; discriminate.
Ltac step_back := eapply re_step; [|first [apply st_begin; reflexivity | apply st_end; reflexivity | apply st_end_leaving; reflexivity | apply st_submit; [nobody|reflexivity]  | eapply st_resume; [nobody|reflexivity] | apply st_cancel_working; [nobody|reflexivity]]].
(** Calls of two tasks, on whatever connection, may be under way at the same time: each has a thread of its own. *)
Theorem C69_two_tasks_refuted : forall (call outcome : Type) (a b : call), exists s : Dispatch.state call outcome, reachable s /\ busy 0 (log s) /\ busy 1 (log s).
Proof.
  intros call outcome a b.
  assert (R : reachable (move (move (move (move (@start call outcome) 0 (Submitted a) [Call a]) 1 (Submitted b) [Call b]) 0 (Working a) [Begin a]) 1 (Working b) [Begin b])).
  { do 4 step_back. apply re_start. }
  eexists. split; [exact R|]. split; [exists [Call a], a|exists [Call b], b]; reflexivity.
Qed.
Print Assumptions C69_two_tasks_refuted.
(** While the call of a cancelled task is under way, no other task goes on: every step is one of a thread. *)
Theorem C69_responsive_refuted : forall (call outcome : Type) (a : call), exists s : Dispatch.state call outcome, reachable s /\ busy 0 (log s) /\
  forall s', step s s' -> exists o, s' = move s 0 Own [End a o; Cancelled].
Proof.
  intros call outcome a.
  assert (R : reachable (move (move (move (@start call outcome) 0 (Submitted a) [Call a]) 0 (Working a) [Begin a]) 0 (Leaving a) [])).
  { do 3 step_back. apply re_start. }
  eexists. split; [exact R|]. split; [exists [Call a], a; reflexivity|]. intros s' S.
  inversion S as [s t c F P|s t c o F P|s t F P|s t c F P|s t c F P|s t c o F P|s t c P|s t c o P|s t c o P]; subst; try (exfalso; apply (F 0 a); reflexivity);
    cbn in P; destruct (Nat.eqb_spec t 0) as [->|_]; try discriminate P. injection P as <-. exists o. reflexivity.
Qed.
Print Assumptions C69_responsive_refuted.

(** ** Example: a call that gives 7, and one that is cancelled while a thread is at work; then the connection is closed. *)
Example C69_example : exists s : Dispatch.state string nat, reachable s /\ places s 0 = Own /\
  of_task 0 (log s) = [Call "execute"; Begin "execute"; End "execute" 7; Got 7; Call "query"; Begin "query"; End "query" 1; Cancelled; Call "close"; Begin "close"; End "close" 0; Got 0]%string.
Proof.
  pose (l := [(Submitted "execute", [Call "execute"]); (Working "execute", [Begin "execute"]); (Ended "execute" 7, [End "execute" 7]); (Own, [Got 7]);
              (Submitted "query", [Call "query"]); (Working "query", [Begin "query"]); (Leaving "query", []); (Own, [End "query" 1; Cancelled]);
              (Submitted "close", [Call "close"]); (Working "close", [Begin "close"]); (Ended "close" 0, [End "close" 0]); (Own, [Got 0])]%string : list (place string nat * list (event string nat))).
  exists (fold_left (fun s m => move s 0 (fst m) (snd m)) l start). split; [|split; reflexivity].
  unfold l. cbn [fold_left fst snd]. do 12 step_back. apply re_start.
Qed.
