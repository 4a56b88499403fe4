(** C21, C22: the generator's believed state, synchronization. *)
From Verif Require Import PyStr QuoteModel ObjectDict Types Objects SqlAst Ddl Mutate DbSpec CatSpec MutSpec RefSpec KeySpec EqProofs TabProofs1 CatProofs5
  Session SessionSpec SessionProofs ExCat.
From stdpp Require Import gmap strings.
Open Scope string_scope.
Open Scope list_scope.

(** ** C21 *)
(** After any sequence of create and drop calls whose statements are executed, the database is the unrelated objects
    [F] plus exactly what the believed state describes, whichever calls raised on the way. *)
Theorem C21_state_follows_database : forall d F cs,
  (forall t, In t (targets cs) -> cat_wf d t /\ apart t F) -> ForallOrdPairs (step_ok d) (targets cs) ->
  let w := run_calls d default_options (engine_of d) cs (World [] F) in w_db w = plus_cat d (w_state w) F.
Proof. intros d F cs HT HO. apply history_mirror; auto. repeat split. Qed.
Print Assumptions C21_state_follows_database.

(** Creating and dropping the same classes again and again needs no condition on pairs. *)
Theorem C21_create_drop_repeatedly : forall d F t cs,
  cat_wf d t -> apart t F -> (forall c, In c cs -> c = KCreate (Ok t) \/ c = KDrop \/ exists e, c = KCreate (Err e)) ->
  let w := run_calls d default_options (engine_of d) cs (World [] F) in w_db w = plus_cat d (w_state w) F.
Proof.
  intros d F t cs W A H. assert (HT : forall u, In u (targets cs) -> u = t).
  { intros u Hu. apply in_flat_map in Hu as (c & Ic & Hu). destruct (H c Ic) as [->|[->|(e & ->)]]; simpl in Hu; [|tauto|tauto]. destruct Hu as [<-|[]]. reflexivity. }
  apply C21_state_follows_database; [intros u Hu; rewrite (HT u Hu); auto|]. clear H. induction (targets cs) as [|u l IH]; constructor.
  - apply Forall_forall. intros v Hv. apply elem_of_list_In in Hv. rewrite (HT u (or_introl eq_refl)), (HT v (or_intror Hv)). now apply step_refl.
  - apply IH. intros v Hv. apply HT. now right.
Qed.
Print Assumptions C21_create_drop_repeatedly.

(** A generator call that raises leaves the believed catalog as it was (the order of namespaces aside), and a mutation
    statement that is only generated changes nothing. *)
Theorem C21_raising_call_keeps_state : forall d o st target st' e,
  base.NoDup (map n_name st) -> gen_create d o st target = (st', Err e) -> Permutation st st'.
Proof. exact gen_create_err. Qed.
Print Assumptions C21_raising_call_keeps_state.
Theorem C21_mutate_keeps_state : forall d o st t, base.NoDup (map n_name st) -> Permutation st (fst (gen_mutate d o st t)).
Proof. exact gen_mutate_state. Qed.
Print Assumptions C21_mutate_keeps_state.

Lemma call_state E f c D : w_state (fst (run_call E f c D)) = fst c.
Proof. destruct c as [st [[|s l]|e]]; try reflexivity. cbn [run_call]. destruct (exec_upto E f (s :: l) D). reflexivity. Qed.
Lemma create_state d o E f t w : w_state (fst (create_objects d o E f t w)) = fst (gen_create d o (w_state w) t).
Proof. apply call_state. Qed.
Lemma create_state_err d o E f e w : w_state (fst (create_objects d o E f (Err e) w)) = w_state w.
Proof. apply call_state. Qed.
Lemma drop_state d o E f w : w_state (fst (drop_objects d o E f w)) = fst (gen_drop d o (w_state w)).
Proof. apply call_state. Qed.

(** the unrelated object of the examples: a table of another application *)
Definition other : db := Db {["crm"]} {[("crm", "client") := OTable (want_tab DPg (Tab (Qualified (Some "crm") "client") [col "id" int4] ["id"] [] None None))]}.
Lemma other_lookup k x : db_objs other !! k = Some x -> k = ("crm", "client") /\ x = OTable (want_tab DPg (Tab (Qualified (Some "crm") "client") [col "id" int4] ["id"] [] None None)).
Proof. simpl. rewrite lookup_singleton_Some. intros [<- <-]. auto. Qed.
Ltac apart_tac := constructor;
  [intros k x H; apply other_lookup in H as [-> _]; simpl; intuition discriminate
  |intros n Hn; right; cases; simpl; set_solver
  |intros k x j H _; apply other_lookup in H as [_ ->]; intros (n & c & q & H1 & H2 & _); simpl in H1; unfold want_cols in H1; simpl in H1;
   apply lookup_insert_Some in H1 as [[<- <-]|[_ H1]]; [destruct H2|rewrite lookup_empty in H1; discriminate]].
Lemma apart_cat1 : apart cat1 other.
Proof. apart_tac. Qed.
Lemma apart_cat2 : apart cat2 other.
Proof. apart_tac. Qed.
Lemma step12 : step_ok DPg cat1 cat2.
Proof. split; [exact cat_compat12|]. intros e (a & b & x & Ia & Ib & En & Ie & Ix & Eq & N). cases; discriminate. Qed.

(** create the first version, a failing conversion, the second version, drop, the first version again is not claimed:
    the way back from version two to one is a pair of its own *)
Example C21_example : let cs := [KDrop; KCreate (Ok cat1); KCreate (Err "TypeError"); KCreate (Ok cat2); KDrop] in
  (forall t, In t (targets cs) -> cat_wf DPg t /\ apart t other) /\ ForallOrdPairs (step_ok DPg) (targets cs)
  /\ w_state (run_calls DPg default_options eng_pg (firstn 4 cs) (World [] other)) = cat2
  /\ w_db (run_calls DPg default_options eng_pg (firstn 4 cs) (World [] other)) = plus_cat DPg cat2 other.
Proof.
  cbn zeta. assert (H1 : forall t, In t [cat1; cat2] -> cat_wf DPg t /\ apart t other).
  { intros t Ht. cases; auto using cat1_wf, cat2_wf, apart_cat1, apart_cat2. }
  assert (H2 : ForallOrdPairs (step_ok DPg) [cat1; cat2]).
  { constructor; [constructor; [exact step12|constructor]|]. constructor; [constructor|constructor]. }
  split; [exact H1|]. split; [exact H2|].
  assert (S : w_state (run_calls DPg default_options eng_pg [KDrop; KCreate (Ok cat1); KCreate (Err "TypeError"); KCreate (Ok cat2)] (World [] other)) = cat2).
  { unfold run_calls. cbn [fold_left run_one]. rewrite create_state, create_state_err, create_state, drop_state. cbn [w_state]. vm_compute. reflexivity. }
  split; [exact S|]. cbn [firstn].
  rewrite <- S at 2. exact (C21_state_follows_database DPg other [KDrop; KCreate (Ok cat1); KCreate (Err "TypeError"); KCreate (Ok cat2)] H1 H2).
Qed.

Lemma failed_create D : create_objects DPg default_options eng_pg (Some 0) (Ok [Ns "logs" [] [] [visit]]) (World [] D) = (World [Ns "logs" [] [] [visit]] D, false).
Proof.
  unfold create_objects. cbn [w_state w_db]. destruct (gen_create DPg default_options [] (Ok [Ns "logs" [] [] [visit]])) as [st [[|s l]|e]] eqn:G; [exfalso|..|exfalso].
  1, 3: vm_compute in G; discriminate G. assert (E : st = fst (gen_create DPg default_options [] (Ok [Ns "logs" [] [] [visit]]))) by now rewrite G.
  vm_compute in E. subst st. reflexivity.
Qed.
Lemma retried_create D : create_objects DPg default_options eng_pg None (Ok [Ns "logs" [] [] [visit]]) (World [Ns "logs" [] [] [visit]] D) = (World [Ns "logs" [] [] [visit]] D, true).
Proof.
  unfold create_objects. cbn [w_state w_db]. replace (gen_create DPg default_options [Ns "logs" [] [] [visit]] (Ok [Ns "logs" [] [] [visit]])) with ([Ns "logs" [] [] [visit]], @Ok (list stmt) []) by (vm_compute; reflexivity). reflexivity.
Qed.
(** Finding: [create_objects] advances the believed state before the statement is executed; if the execution fails the
    generator believes in objects that do not exist, and a retry does nothing. *)
Theorem C21_failed_execution_refuted :
  ~ (forall d o E fault t w w', create_objects d o E fault (Ok t) w = (w', false) -> w_db w' = w_db w -> Permutation (w_state w) (w_state w')).
Proof.
  intros H. specialize (H DPg default_options eng_pg (Some 0) [Ns "logs" [] [] [visit]] (World [] other) (World [Ns "logs" [] [] [visit]] other)).
  assert (P := H (failed_create other) eq_refl). apply Permutation_nil in P. discriminate P.
Qed.
Print Assumptions C21_failed_execution_refuted.
Theorem C21_retry_after_failure_refuted :
  ~ (forall d o E t w w' w'', create_objects d o E (Some 0) (Ok t) w = (w', false) -> create_objects d o E None (Ok t) w' = (w'', true) -> has_cat d t (w_db w'')).
Proof.
  intros H. specialize (H DPg default_options eng_pg [Ns "logs" [] [] [visit]] (World [] other) (World [Ns "logs" [] [] [visit]] other) (World [Ns "logs" [] [] [visit]] other)).
  destruct (H (failed_create other) (retried_create other)) as [_ Z].
  specialize (Z (Ns "logs" [] [] [visit]) ("logs", "visit") (OTable (want_tab DPg visit)) (or_introl eq_refl) (or_introl eq_refl)).
  cbn [w_db] in Z. apply other_lookup in Z as [Z _]. discriminate Z.
Qed.
Print Assumptions C21_retry_after_failure_refuted.

(** A call that returns normally has executed every statement of its script. *)
Lemma upto_all E : forall l fault D D', exec_upto E fault l D = (D', true) -> exec_all E l D = Some D'.
Proof.
  induction l as [|s l IH]; intros fault D D' H; simpl in H.
  - destruct fault as [[|k]|]; [discriminate|..]; injection H as <-; reflexivity.
  - destruct fault as [[|k]|]; [discriminate|..]; (destruct (exec E s D) as [D1|] eqn:X; [|discriminate]); cbn [exec_all]; rewrite X; eauto.
Qed.
Lemma run_all E fault c D w : run_call E fault c D = (w, true) -> exists l, snd c = Ok l /\ exec_all E l D = Some (w_db w).
Proof.
  destruct c as [st [[|s l]|e]]; cbn [run_call snd]; intros H; [injection H as <-; exists []; auto| |discriminate].
  destruct (exec_upto E fault (s :: l) D) as [D' [|]] eqn:X; [|discriminate]. injection H as <-. exists (s :: l). split; [reflexivity|]. eapply upto_all; eauto.
Qed.
Theorem C21_success_executes_script : forall d o E fault t w w', create_objects d o E fault t w = (w', true) ->
  exists l, snd (gen_create d o (w_state w) t) = Ok l /\ exec_all E l (w_db w) = Some (w_db w').
Proof. intros d o E fault t w w'. apply run_all. Qed.
Print Assumptions C21_success_executes_script.
Theorem C21_success_executes_drop : forall d o E fault w w', drop_objects d o E fault w = (w', true) ->
  exists l, snd (gen_drop d o (w_state w)) = Ok l /\ exec_all E l (w_db w) = Some (w_db w').
Proof. intros d o E fault w w'. apply run_all. Qed.
Print Assumptions C21_success_executes_drop.

(** ** C22 *)
(** A synchronization that returns normally has executed every statement of its script, whatever the server, the explorer
    and the options. *)
Theorem C22_success_executes_script : forall d o E X fault mods target w w' l,
  synchronize d o E X fault mods target w = (w', true, l) -> exec_all E l (w_db w) = Some (w_db w').
Proof.
  intros d o E X fault mods target w w' l H. unfold synchronize in H. destruct (gen_create d o [] target) as [t' [l0|e]]; [|discriminate].
  destruct (discover X (w_db w) mods) as [s [|]]; cbn [negb] in H; [|discriminate]. destruct (gen_mutate d o s t') as [s' [[|x l1]|e]]; [|..|discriminate].
  - injection H as <- <-. reflexivity.
  - destruct (exec_upto E fault (x :: l1) (w_db w)) as [D' [|]] eqn:Z; [|discriminate]. injection H as <- <-. exact (upto_all _ _ _ _ _ Z).
Qed.
Print Assumptions C22_success_executes_script.
(** A successful synchronization leaves the target next to the unrelated objects: [s] is what discovery found. *)
Theorem C22_synchronize_reaches_target : forall d X mods t w w' l s F,
  cat_wf d t -> cat_wf d s -> step_ok d s t -> apart s F -> apart t F ->
  w_db w = plus_cat d s F -> discover X (w_db w) mods = (s, true) ->
  synchronize d default_options (engine_of d) X None mods (Ok t) w = (w', true, l) ->
  w_db w' = plus_cat d t F /\ (l <> [] -> Permutation t (w_state w')).
Proof.
  intros d X mods t w w' l s F Wt Ws [C HP] As At Ew Hd H.
  exact (synchronize_reaches d default_options X mods t w w' l s F (conj eq_refl (conj eq_refl (conj eq_refl eq_refl))) Wt Ws C HP As At Ew Hd H).
Qed.
Print Assumptions C22_synchronize_reaches_target.

(** Synchronizing again with the same classes succeeds, generates no statement and leaves the database alone, if the
    explorer sees what the target describes. *)
Theorem C22_second_synchronize_does_nothing : forall d o X mods t w w' l s F,
  drops_all o -> cat_wf d t -> cat_wf d s -> step_ok d s t -> apart s F -> apart t F -> sees d X mods t ->
  (forall k x, db_objs F !! k = Some x -> ~ In (fst k) mods) ->
  (d = DMySQL -> forall n x c, In n t -> In x (n_tables n) -> In c (t_columns x) -> exists m, mysql_comment (c_desc c) = Ok m) ->
  w_db w = plus_cat d s F -> discover X (w_db w) mods = (s, true) ->
  synchronize d o (engine_of d) X None mods (Ok t) w = (w', true, l) ->
  exists st, synchronize d o (engine_of d) X None mods (Ok t) w' = (World st (w_db w'), true, []).
Proof.
  intros d o X mods t w w' l s F Ho Wt Ws [C HP] As At Hs Fm HM Ew Hd H.
  destruct (synchronize_reaches d o X mods t w w' l s F Ho Wt Ws C HP As At Ew Hd H) as [E _].
  apply (synchronize_again d o X mods t w' F Wt Hs At Fm HM E).
  unfold synchronize in H. destruct (gen_create d o [] (Ok t)) as [t' [l0|]]; [eauto|discriminate].
Qed.
Print Assumptions C22_second_synchronize_does_nothing.

(** A synchronization that fails, at whatever point, does not advance the believed state: it is what discovery found
    (as far as it came), or empty if the classes could not be converted; the database has executed a prefix of the script. *)
Theorem C22_failed_synchronize_not_advanced : forall d o E X fault mods target w w' l,
  synchronize d o E X fault mods target w = (w', false, l) ->
  (w_state w' = [] \/ Permutation (fst (discover X (w_db w) mods)) (w_state w')) /\
  exists k, exec_all E (firstn k l) (w_db w) = Some (w_db w').
Proof. exact synchronize_failed. Qed.
Print Assumptions C22_failed_synchronize_not_advanced.

(** Instance: an explorer that knows two states of the schema "logs": absent, and the table [visit] in an own schema *)
Definition visits : catalog := [Ns "logs" [] [] [Tab (logs "visit") [col "id" int8; ncol "visitor" int4] ["id"] [CUnique "uq" ["visitor"]] (Some "visits") None]].
Definition ex_explorer : explorer := fun D n =>
  match db_objs D !! ("logs", "visit") with
  | Some _ => Ok (Ns "logs" [] [] [Tab (logs "visit") [ncol "visitor" int4; col "id" int8] ["id"] [CUnique "uq" ["visitor"]] (Some "visits") None])
  | None => Ok (Ns "" [] [] [])
  end.
Lemma visits_wf : cat_wf DPg visits.
Proof. constructor; [simpl; nodup|]. intros n Hn. cases; nswf. Qed.
Lemma visits_apart : apart visits other.
Proof. apart_tac. Qed.
Lemma ex_sees : sees DPg ex_explorer ["logs"] visits.
Proof.
  intros D [_ H] _. specialize (H (Ns "logs" [] [] [Tab (logs "visit") [col "id" int8; ncol "visitor" int4] ["id"] [CUnique "uq" ["visitor"]] (Some "visits") None]) _ _ (or_introl eq_refl) (or_introl eq_refl)).
  eexists. unfold discover, discover_into, ex_explorer. match type of H with _ = ?b => change (db_objs D !! ("logs", "visit") = b) in H end. rewrite H. split; [reflexivity|]. split; [|vm_compute; reflexivity].
  constructor; [keys|]. intros n Hn. cases; nskeyed.
Qed.
Definition nothing : catalog := [Ns "" [] [] []].
Lemma nothing_wf : cat_wf DPg nothing.
Proof. constructor; [simpl; nodup|]. intros n Hn. cases; nswf. Qed.
Lemma nothing_apart : apart nothing other.
Proof. apart_tac. Qed.
Lemma nothing_step : step_ok DPg nothing visits.
Proof.
  split; [constructor|].
  - intros a b Ia Ib E. cases; discriminate.
  - intros e n ty q (a & b & x & Ia & Ib & En & R). cases; discriminate.
  - intros e (a & b & x & Ia & Ib & En & R). cases; discriminate.
  - intros e (a & b & x & Ia & Ib & En & R). cases; discriminate.
Qed.
Lemma nothing_found : discover ex_explorer other ["logs"] = (nothing, true).
Proof.
  unfold discover, discover_into, ex_explorer. destruct (db_objs other !! ("logs", "visit")) as [x|] eqn:E; [|reflexivity].
  apply other_lookup in E as [E _]. discriminate E.
Qed.
Lemma nothing_plus : other = plus_cat DPg nothing other.
Proof. unfold plus_cat, nothing. unfold other at 1. f_equal. - set_solver. - simpl. symmetry. apply (left_id ∅ (∪)). Qed.
(** the first call creates a schema, a table and a constraint; the second does nothing *)
Example C22_example : exists w' l st,
  synchronize DPg default_options eng_pg ex_explorer None ["logs"] (Ok visits) (World [] other) = (w', true, l) /\ List.length l = 4 /\
  w_db w' = plus_cat DPg visits other /\
  synchronize DPg default_options eng_pg ex_explorer None ["logs"] (Ok visits) w' = (World st (w_db w'), true, []).
Proof.
  destruct (gen_mutate DPg default_options nothing visits) as [s' [l|e]] eqn:M; [|exfalso; vm_compute in M; discriminate M].
  assert (X : exec_all eng_pg l other = Some (plus_cat DPg visits other)).
  { rewrite nothing_plus at 1. unfold gen_mutate in M. destruct (mutate_catalog DPg default_options nothing visits) as [[[a b] c]|] eqn:M'; [|discriminate M]. injection M as -> ->.
    destruct nothing_step as [C HP].
    exact (mutation_frame DPg default_options nothing visits s' b l other M' (conj eq_refl (conj eq_refl (conj eq_refl eq_refl))) nothing_wf visits_wf C HP nothing_apart visits_apart). }
  assert (L : List.length l = 4).
  { assert (Z : match snd (gen_mutate DPg default_options nothing visits) with Ok l => List.length l = 4 | Err _ => False end) by (vm_compute; reflexivity). rewrite M in Z. exact Z. }
  assert (S1 : synchronize DPg default_options eng_pg ex_explorer None ["logs"] (Ok visits) (World [] other) = (World (sorted_or_same visits) (plus_cat DPg visits other), true, l)).
  { unfold synchronize. destruct (gen_create DPg default_options [] (Ok visits)) as [t' [l0|e]] eqn:G; [|exfalso; vm_compute in G; discriminate G].
    assert (t' = visits) as -> by (assert (Z : fst (gen_create DPg default_options [] (Ok visits)) = visits) by (vm_compute; reflexivity); rewrite G in Z; exact Z).
    cbn [w_db]. rewrite nothing_found. cbn [negb]. rewrite M. destruct l as [|x l]; [discriminate L|]. now rewrite (exec_upto_all _ _ _ _ X). }
  destruct (C22_second_synchronize_does_nothing DPg default_options ex_explorer ["logs"] visits (World [] other) _ _ nothing other (conj eq_refl (conj eq_refl (conj eq_refl eq_refl)))
    visits_wf nothing_wf nothing_step nothing_apart visits_apart ex_sees
    ltac:(intros k x H; apply other_lookup in H as [-> _]; simpl; intuition discriminate) ltac:(discriminate) nothing_plus nothing_found S1) as [st S2].
  exists (World (sorted_or_same visits) (plus_cat DPg visits other)), l, st. split; [exact S1|]. split; [exact L|]. split; [reflexivity|exact S2].
Qed.
