(** C43: the dialect registry. *)
From Verif Require Import PyStr Registry RegistrySpec.
Open Scope string_scope.

(** The registry never holds a name twice. *)
Definition reg_wf (r : registry) : Prop := NoDup (map fst r).
(** the map that a registry stands for: its items *)
Definition stands_for (r : registry) (m : pmap) : Prop := forall n e, m n = Some e <-> In (n, e) r.

Lemma get_iff r n e : reg_wf r -> r_get n r = Some e <-> In (n, e) r.
Proof.
  induction r as [|[k x] r IH]; simpl; intros W; [split; [discriminate|tauto]|]. inversion W as [|? ? W1 W2]; subst.
  destruct (String.eqb_spec k n) as [->|N].
  - split; [intros [= ->]; auto|]. intros [[= ->]|H]; [reflexivity|]. destruct W1. apply in_map_iff. exists (n, e). auto.
  - rewrite IH by assumption. split; [auto|]. intros [[= -> ->]|H]; [now destruct N|exact H].
Qed.
Lemma pop_iff r n k e : reg_wf r -> In (k, e) (r_pop n r) <-> In (k, e) r /\ k <> n.
Proof.
  induction r as [|[j x] r IH]; simpl; intros W; [tauto|]. inversion W as [|? ? W1 W2]; subst. destruct (String.eqb_spec j n) as [->|N].
  - split; [|intros [[[= -> ->]|H] Nk]; [now destruct Nk|exact H]]. intros H. split; [auto|]. intros ->. apply W1, in_map_iff. exists (n, e). auto.
  - simpl. rewrite IH by assumption. split; [intros [[= -> ->]|[H Nk]]; auto|]. intros [[[= -> ->]|H] Nk]; auto.
Qed.
Lemma pop_wf r n : reg_wf r -> reg_wf (r_pop n r).
Proof.
  unfold reg_wf. induction r as [|[j x] r IH]; simpl; intros W; [exact W|]. inversion W as [|? ? W1 W2]; subst. destruct (String.eqb j n); [exact W2|]. simpl. constructor; [|auto].
  intros H. apply W1. apply in_map_iff in H as ([k e] & E & H). simpl in E. subst k. apply (pop_iff r n j e W2) in H as [H _]. apply in_map_iff. exists (j, e). auto.
Qed.
Lemma get_none r n : r_get n r = None <-> ~ In n (map fst r).
Proof.
  induction r as [|[k x] r IH]; simpl; [tauto|]. destruct (String.eqb_spec k n) as [->|N]; [split; [discriminate|intros H; destruct H; auto]|]. rewrite IH. tauto.
Qed.
Lemma stands_none r m n : stands_for r m -> m n = None <-> ~ In n (map fst r).
Proof.
  intros S. split.
  - intros H I. apply in_map_iff in I as ([k e] & <- & I). apply S in I. simpl in *. congruence.
  - intros H. destruct (m n) as [e|] eqn:E; [|reflexivity]. apply S in E. destruct H. apply in_map_iff. exists (n, e). auto.
Qed.
Lemma app_wf r n e : reg_wf r -> ~ In n (map fst r) -> reg_wf (r ++ [(n, e)])%list.
Proof.
  unfold reg_wf. rewrite map_app. induction r as [|[k x] r IH]; simpl; intros W N; [constructor; [tauto|constructor]|]. inversion W as [|? ? W1 W2]; subst.
  constructor; [|apply IH; tauto]. rewrite in_app_iff. simpl. intros [H|[H|[]]]; [tauto|subst; tauto].
Qed.

Lemma reg_step_spec r m c r' a : reg_wf r -> stands_for r m -> reg_step r c = (r', a) -> exists m', spec_step m c m' a /\ stands_for r' m' /\ reg_wf r'.
Proof.
  intros W S H. destruct c as [n e|n|n]; simpl in H.
  - unfold register_dialect in H. destruct (r_get n r) as [x|] eqn:G; injection H as <- <-.
    + apply get_iff in G; [|exact W]. apply S in G. exists m. split; [econstructor; eauto|]. auto.
    + apply get_none in G. assert (Z := proj2 (stands_none r m n S) G). exists (set m n (Some e)). split; [now constructor|]. split; [|now apply app_wf].
      intros k x. unfold set. rewrite in_app_iff. simpl. destruct (String.eqb_spec k n) as [->|N].
      * split; [intros [= ->]; auto|]. intros [H|[[= ->]|[]]]; [|reflexivity]. apply S in H. congruence.
      * rewrite (S k x). split; [auto|]. intros [H|[[= -> _]|[]]]; [exact H|now destruct N].
  - unfold unregister_dialect in H. destruct (r_get n r) as [x|] eqn:G; injection H as <- <-.
    + apply get_iff in G; [|exact W]. apply S in G. exists (set m n None). split; [econstructor; eauto|]. split; [|now apply pop_wf].
      intros k e. rewrite pop_iff by assumption. unfold set. destruct (String.eqb_spec k n) as [->|N]; [split; [discriminate|tauto]|]. rewrite (S k e). tauto.
    + apply get_none in G. exists m. split; [constructor; now apply (stands_none r m n S)|auto].
  - unfold get_dialect in H. destruct (r_get n r) as [x|] eqn:G; injection H as <- <-.
    + apply get_iff in G; [|exact W]. apply S in G. exists m. split; [now constructor|auto].
    + apply get_none in G. exists m. split; [constructor; now apply (stands_none r m n S)|auto].
Qed.

(** Every history of calls, from any registry, answers and ends as the partial map does. *)
Theorem C43_registry_is_partial_map : forall cs r m r' l,
  reg_wf r -> stands_for r m -> reg_run r cs = (r', l) -> exists m', spec_run m cs m' l /\ stands_for r' m' /\ reg_wf r'.
Proof.
  induction cs as [|c cs IH]; intros r m r' l W S H; simpl in H.
  - injection H as <- <-. exists m. split; [constructor|auto].
  - destruct (reg_step r c) as [r1 a] eqn:E. destruct (reg_run r1 cs) as [r2 l2] eqn:E2. injection H as <- <-.
    destruct (reg_step_spec r m c r1 a W S E) as (m1 & H1 & S1 & W1). destruct (IH r1 m1 r2 l2 W1 S1 E2) as (m2 & H2 & S2 & W2).
    exists m2. split; [econstructor; eauto|auto].
Qed.
Print Assumptions C43_registry_is_partial_map.
(** A call that raises leaves the registry exactly as it was. *)
Theorem C43_refused_call_changes_nothing : forall r c r' e, reg_step r c = (r', ARaise e) -> r' = r.
Proof.
  intros r [n x|n|n] r' e; unfold reg_step, register_dialect, unregister_dialect, get_dialect; destruct (r_get n r); intros [= <- _]; reflexivity.
Qed.
Print Assumptions C43_refused_call_changes_nothing.
Lemma skipped_iff x : skipped x = false <-> bundled x.
Proof.
  unfold skipped, bundled. rewrite !Bool.orb_false_iff, Bool.negb_false_iff.
  assert (F : forall p, starts_with p (rs_name x) = false <-> forall s, rs_name x <> (p ++ s)%string).
  { intros p. rewrite <- Bool.not_true_iff_false, starts_with_spec. split; [intros H s E; apply H; eauto|intros H (s & E); exact (H s E)]. }
  rewrite !F. tauto.
Qed.
Lemma provides_iff x n e : provides x n e <-> (n, e) = discovered x.
Proof.
  unfold provides, discovered. destruct (rs_missing x) as [m|].
  - split; [intros [(H & _)|(k & [= <-] & -> & ->)]; [discriminate|reflexivity]|]. intros [= -> ->]. right. eauto.
  - split; [intros [(_ & -> & ->)|(k & H & _)]; [reflexivity|discriminate]|]. intros [= -> ->]. left. auto.
Qed.
Lemma discover_all : forall l r, reg_wf r -> NoDup (map (fun x => fst (discovered x)) (filter (fun x => negb (skipped x)) l)) ->
    (forall x, In x l -> skipped x = false -> ~ In (fst (discovered x)) (map fst r)) ->
    exists r', discover_dialects l r = (r', ANone) /\ reg_wf r' /\ forall p, In p r' <-> In p r \/ exists x, In x l /\ skipped x = false /\ p = discovered x.
Proof.
  induction l as [|x l IH]; intros r W N F; simpl.
  - exists r. split; [reflexivity|]. split; [exact W|]. intros p. split; [auto|]. intros [H|(x & [] & _)]; exact H.
  - simpl in N. destruct (skipped x) eqn:Sk; simpl in N.
    + destruct (IH r W N) as (r' & H1 & H2 & H3); [intros y Iy; apply F; now right|]. exists r'. split; [exact H1|]. split; [exact H2|].
      intros p. rewrite H3. split; (intros [H|(y & Iy & Sy & E)]; [now left|]); [right; exists y; auto|]. destruct Iy as [<-|Iy]; [congruence|]. right. eauto.
    + inversion N as [|? ? N1 N2]; subst. assert (Fx := F x (or_introl eq_refl) Sk). unfold register_dialect. rewrite (proj2 (get_none r _) Fx).
      destruct (IH (r ++ [(fst (discovered x), snd (discovered x))])%list) as (r' & H1 & H2 & H3); [now apply app_wf|exact N2| |].
      * intros y Iy Sy. rewrite map_app, in_app_iff. simpl. intros [H|[H|[]]]; [revert H; apply F; [now right|exact Sy]|]. apply N1. apply in_map_iff. exists y. split; [congruence|].
        apply filter_In. rewrite Sy. auto.
      * exists r'. split; [exact H1|]. split; [exact H2|]. intros p. rewrite H3, in_app_iff. simpl. rewrite <- surjective_pairing. split.
        -- intros [[H|[<-|[]]]|(y & Iy & Sy & E)]; [now left|right; exists x; auto|right; exists y; auto].
        -- intros [H|(y & [<-|Iy] & Sy & E)]; [auto|subst; auto|right; exists y; auto].
Qed.
(** After the bundled dialects have been discovered, exactly they can be looked up: the engine if its dependency is
    installed, else a placeholder whose classes raise [RuntimeError]. *)
Theorem C43_discovery : forall l,
  NoDup (map (fun x => fst (discovered x)) (filter (fun x => negb (skipped x)) l)) ->
  exists r, discover_dialects l [] = (r, ANone) /\
    (forall n e, get_dialect n r = (r, AEngine e) <-> exists x, In x l /\ bundled x /\ provides x n e) /\
    (forall n, (forall x e, In x l -> bundled x -> ~ provides x n e) -> get_dialect n r = (r, ARaise "ValueError")).
Proof.
  intros l N. destruct (discover_all l [] (NoDup_nil _) N) as (r & H1 & H2 & H3); [intros ? ? ? []|]. exists r. split; [exact H1|].
  assert (G : forall n e, In (n, e) r <-> exists x, In x l /\ bundled x /\ provides x n e).
  { intros n e. rewrite H3. split.
    - intros [[]|(x & Ix & Sx & E)]. exists x. rewrite <- skipped_iff, provides_iff. auto.
    - intros (x & Ix & Sx & E). right. exists x. rewrite skipped_iff, <- provides_iff. auto. }
  split.
  - intros n e. rewrite <- G, <- (get_iff r n e H2). unfold get_dialect. destruct (r_get n r); split; congruence.
  - intros n A. unfold get_dialect. destruct (r_get n r) as [e|] eqn:E; [|reflexivity]. apply get_iff in E; [|exact H2]. apply G in E as (x & Ix & Bx & P). now apply A in P.
Qed.
Print Assumptions C43_discovery.
Theorem C43_placeholder_raises : forall x n e m, provides x n e -> rs_missing x = Some m -> engine_class e = Err "RuntimeError".
Proof. intros x n e m [(H & _)|(k & _ & _ & ->)] E; [congruence|reflexivity]. Qed.
Print Assumptions C43_placeholder_raises.

Example C43_example : snd (reg_run [] [CRegister "pg" (EFound 1); CGet "pg"; CRegister "pg" (EFound 2); CGet "pg"; CUnregister "pg"; CGet "pg"; CUnregister "pg"; CRegister "pg" (EFound 2); CGet "pg"])
  = [ANone; AEngine (EFound 1); ARaise "ValueError"; AEngine (EFound 1); ANone; ARaise "ValueError"; ARaise "KeyError"; ANone; AEngine (EFound 2)].
Proof. reflexivity. Qed.
Example C43_discovery_example : let l := [Resource "__init__.py" false None "" 0; Resource "mysql" true None "mysql" 1; Resource "oracle" true (Some "oracledb") "" 0] in
  NoDup (map (fun x => fst (discovered x)) (filter (fun x => negb (skipped x)) l)) /\
  fst (discover_dialects l []) = [("mysql", EFound 1); ("oracle", EUnavailable "oracle" "oracledb")].
Proof. split; [simpl; repeat constructor; simpl; intuition discriminate|reflexivity]. Qed.
