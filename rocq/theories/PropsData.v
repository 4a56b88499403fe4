(** C26, C46, C47: batching, statement lists, table queries. *)
From Verif Require Import PyStr QuoteModel ObjectDict ObjectDictProofs Types Objects SqlAst Ddl Mutate Render ExCat
  Batch BatchSpec BatchProofs StmtList StmtListProofs TablePredProofs.
From Coq Require Import Lia.
Open Scope list_scope.

(** ** C26 *)
(** The batches cut the stream into full batches followed by at most one shorter, non-empty one... *)
Theorem C26_batches_cut_the_stream : forall (R : Type) (size : nat) (records : list R), 0 < size ->
  cut size records (batches size records).
Proof. intros R size records H. apply batches_cut. exact H. Qed.
Print Assumptions C26_batches_cut_the_stream.
(** ... so nothing is lost, duplicated or reordered, ... *)
Theorem C26_concatenation_is_the_input : forall (R : Type) (size : nat) (records : list R), 0 < size ->
  concat (batches size records) = records.
Proof. intros R size records H. apply (cut_concat size). apply batches_cut. exact H. Qed.
Print Assumptions C26_concatenation_is_the_input.
(** ... every batch is non-empty and within the limit, all but the last are full, an empty stream has no batch, ... *)
Theorem C26_batch_sizes : forall (R : Type) (size : nat) (records : list R), 0 < size ->
  (forall b, In b (batches size records) -> b <> [] /\ length b <= size) /\
  (forall p b q, batches size records = p ++ b :: q -> q <> [] -> length b = size) /\
  (batches size records = [] <-> records = []).
Proof.
  intros R size records H. pose proof (batches_cut (R:=R) size H records) as C. split; [|split].
  - intros b I. exact (cut_sizes size H records _ b C I).
  - intros p b q E N. exact (cut_full_prefix size H records _ p b q C E N).
  - split; [|intros ->; reflexivity]. intros E. rewrite E in C. apply (cut_concat size) in C. symmetry. exact C.
Qed.
Print Assumptions C26_batch_sizes.
(** ... and executing the batches one after another does the same as executing the records one by one. *)
Theorem C26_processing_independent_of_batch_size : forall (R S : Type) (step : S -> R -> res S) (size : nat) (records : list R) (s : S),
  0 < size ->
  let run := fix run (s : S) (l : list R) : res S := match l with [] => Ok s | r :: rest => do s' <- step s r; run s' rest end in
  (fix go (s : S) (bs : list (list R)) : res S := match bs with [] => Ok s | b :: rest => do s' <- run s b; go s' rest end)
    s (batches size records) = run s records.
Proof.
  intros R S step size records s H run. rewrite <- (cut_concat size records (batches size records)) at 2 by (apply batches_cut; exact H).
  generalize (batches size records). intros bs. revert s.
  assert (A : forall a b s, run s (a ++ b) = do s' <- run s a; run s' b).
  { intros a b. induction a as [|x a IH]; intros s; [reflexivity|]. cbn [app run]. destruct (step s x); cbn [bind]; [|reflexivity]. apply IH. }
  induction bs as [|b bs IH]; intros s; [reflexivity|]. cbn [concat]. rewrite A. destruct (run s b); cbn [bind]; [|reflexivity]. apply IH.
Qed.
Print Assumptions C26_processing_independent_of_batch_size.
Example C26_example : batches 3 [1;2;3;4;5;6;7] = [[1;2;3];[4;5;6];[7]] /\ batches 3 [1;2;3] = [[1;2;3]] /\ (0 < BATCH_SIZE)%N.
Proof. repeat split. Qed.

(** ** C46 *)
(** Extending a statement list succeeds exactly if no statement is blank, and then appends the present
    ones in order. *)
Theorem C46_extend_keeps_present_statements : forall l os,
  (snd (sl_extend l os) = None <-> forall s, In (Some s) os -> blank s = false) /\
  (snd (sl_extend l os) = None -> fst (sl_extend l os) = l ++ somes os).
Proof. intros l os. split; [apply sl_extend_ok|apply sl_extend_contents]. Qed.
Print Assumptions C46_extend_keeps_present_statements.
(** A refusal happens at the first blank statement; what was accepted before it stays. *)
Theorem C46_refusal_at_first_blank : forall l os e, snd (sl_extend l os) = Some e ->
  exists p s r, os = p ++ Some s :: r /\ blank s = true /\ (forall x, In (Some x) p -> blank x = false)
    /\ fst (sl_extend l os) = l ++ somes p.
Proof. exact sl_extend_fail. Qed.
Print Assumptions C46_refusal_at_first_blank.
(** No history of appends and extends, failing or not, leaves a blank statement in the list. *)
Theorem C46_never_blank : forall ops s, In s (fold_left sl_run ops []) -> blank s = false.
Proof. intros ops s. apply sl_run_inv. intros ? []. Qed.
Print Assumptions C46_never_blank.
(** Joining non-blank statements yields nothing exactly if there are none; otherwise a text that
    execution accepts. *)
Theorem C46_join_none_iff_empty : forall os, (forall s, In (Some s) os -> blank s = false) ->
  (join_or_none os = None <-> somes os = []) /\
  (forall x, join_or_none os = Some x -> x = join_str NL (somes os) /\ execute_guard x = Ok x).
Proof.
  intros os H.
  assert (S : forall s, In s (somes os) -> blank s = false).
  { intros s I. apply H. clear H. induction os as [|[x|] os IH]; simpl in *; [destruct I| |auto]. destruct I as [->|I]; auto. }
  split.
  - rewrite join_or_none_none. split; [|auto]. intros [E|E]; [exact E|]. rewrite E in S. discriminate (S ""%string (or_introl eq_refl)).
  - intros x E. apply join_or_none_some in E. destruct E as [-> N]. split; [reflexivity|].
    unfold execute_guard. destruct (somes os) as [|y r]; [contradiction|].
    rewrite (join_nonblank NL (y :: r) y); [reflexivity|left; reflexivity|apply S; left; reflexivity].
Qed.
Print Assumptions C46_join_none_iff_empty.
(** Joining joined groups is the same as joining all statements. *)
Theorem C46_join_nested : forall groups : list (list (option string)),
  (forall g, In g groups -> ~ In (Some ""%string) g) ->
  join_or_none (map join_or_none groups) = join_or_none (concat groups).
Proof. exact join_nested. Qed.
Print Assumptions C46_join_nested.
(** The text of a mutation is either absent, exactly when there is no statement, or accepted by execution. *)
Theorem C46_mutation_script_never_blank : forall d o s t,
  (forall x, mutate_text d o s t = Ok (Some x) -> execute_guard x = Ok x) /\
  (mutate_text d o s t = Ok None <-> exists s' t', mutate_catalog d o s t = Ok (s', t', [])).
Proof. intros d o s t. split; [intros x; apply mutate_text_nonblank|apply mutate_text_none]. Qed.
Print Assumptions C46_mutation_script_never_blank.
Example C46_example :
  sl_extend [] [Some "A;"; None; Some "B;"]%string = (["A;"; "B;"]%string, None) /\
  sl_extend [] [Some "A;"; Some "  "; Some "B;"]%string = (["A;"]%string, Some "ValueError"%string) /\
  join_or_none [Some "A;"; None; Some "B;"]%string = Some ("A;" ++ NL ++ "B;")%string /\ join_or_none [None; None] = None.
Proof. repeat split. Qed.
(** Without the guard of the list, one empty statement is swallowed silently. *)
Theorem C46_empty_statement_refuted : join_or_none [Some ""%string] = None.
Proof. reflexivity. Qed.

(** ** C47 *)
Theorem C47_unique_column : forall t c,
  is_unique_column t c = true <-> exists n, In (CUnique n [c]) (t_constraints t).
Proof. exact is_unique_column_spec. Qed.
Print Assumptions C47_unique_column.
Theorem C47_relation : forall t c,
  (is_relation t c = true <-> exists n rt rc, In (CForeign n [c] rt rc) (t_constraints t)) /\
  (is_ok (get_constraint t c) = false <-> is_relation t c = false) /\
  (forall r, get_constraint t c = Ok r <->
     exists l1 n l2, t_constraints t = l1 ++ CForeign n [c] (fst r) (snd r) :: l2
       /\ forall m rt rc, ~ In (CForeign m [c] rt rc) l1).
Proof. intros t c. split; [apply is_relation_spec|]. split; [apply get_constraint_err|]. intros r. apply get_constraint_ok. Qed.
Print Assumptions C47_relation.
Theorem C47_primary_column : forall t c,
  (forall b, is_primary_column t c = Ok b <-> exists k, t_pk t = [k] /\ (b = true <-> c = k)) /\
  (is_ok (is_primary_column t c) = false <-> forall k, t_pk t <> [k]).
Proof. intros t c. split; [intros b; apply is_primary_column_ok|apply is_primary_column_err]. Qed.
Print Assumptions C47_primary_column.
Theorem C47_get_primary_column : forall t, NoDup (map c_name (t_columns t)) ->
  (forall c, get_primary_column t = Ok c <-> In c (t_columns t) /\ t_pk t = [c_name c]) /\
  (is_ok (get_primary_column t) = false <-> forall k, t_pk t = [k] -> ~ In k (map c_name (t_columns t))).
Proof. intros t ND. split; [intros c; apply get_primary_column_ok; exact ND|apply get_primary_column_err]. Qed.
Print Assumptions C47_get_primary_column.
Theorem C47_lookup_column : forall t c b,
  is_lookup_column t c = Ok b <->
  exists k, t_pk t = [k] /\ (b = true <-> c = k \/ exists n, In (CUnique n [c]) (t_constraints t)).
Proof. exact is_lookup_column_ok. Qed.
Print Assumptions C47_lookup_column.
Theorem C47_lookup_table : forall t,
  (is_lookup_table t = Ok true <->
   length (t_columns t) = 2 /\ exists k, t_pk t = [k] /\
     forall c, In c (t_columns t) -> c_name c = k \/ exists n, In (CUnique n [c_name c]) (t_constraints t)) /\
  (is_ok (is_lookup_table t) = false <-> length (t_columns t) = 2 /\ forall k, t_pk t <> [k]).
Proof. intros t. split; [apply is_lookup_table_true|apply is_lookup_table_err]. Qed.
Print Assumptions C47_lookup_table.
Theorem C47_columns_in_order : forall t ns, NoDup (map c_name (t_columns t)) ->
  (forall cs, get_columns t (Some ns) = Ok cs <-> map c_name cs = ns /\ forall c, In c cs -> In c (t_columns t)) /\
  (is_ok (get_columns t (Some ns)) = false <-> exists n, In n ns /\ ~ In n (map c_name (t_columns t))).
Proof. intros t ns ND. split; [intros cs; apply get_columns_named; exact ND|apply get_columns_err]. Qed.
Print Assumptions C47_columns_in_order.
Theorem C47_value_columns : forall t ns vs, get_value_columns t ns = Ok vs ->
  exists cs, get_columns t ns = Ok cs /\ subseq vs cs
    /\ forall c, In c vs <-> In c cs /\ ~ In (c_name c) (t_pk t) /\ c_identity c = false.
Proof. exact get_value_columns_ok. Qed.
Print Assumptions C47_value_columns.
Open Scope string_scope. Open Scope list_scope.
Definition c47_t : table :=
  Tab (q0 "Color") [Col "id" bigint false None true None; Col "value" (TVarChar (Some 64%Z)) false None false None]
      ["id"%string] [CUnique "uq_Color" ["value"]] None None.
Example C47_example : NoDup (map c_name (t_columns c47_t)) /\ is_lookup_table c47_t = Ok true /\
  is_unique_column c47_t "value" = true /\ is_unique_column c47_t "id" = false /\ is_relation c47_t "value" = false /\
  is_lookup_column c47_t "id" = Ok true /\ is_ok (get_primary_column (Tab (q0 "T") [] ["a"; "b"] [] None None)) = false.
Proof. split; [simpl; repeat constructor; simpl; intuition discriminate|]. repeat split. Qed.
