(** C41: the TLS policy. *)
From Verif Require Import PyStr Tls TlsSpec.
Open Scope list_scope.

(** For drivers that take "no context" as "no TLS" the attempts obey the mode, whatever fails. *)
Theorem C41_attempts_obey_mode : forall m env, policy m (fst (open_connection plain_driver env m)).
Proof.
  intros m env. destruct m as [[]|]; cbn; unfold open_with; cbn; repeat (destruct (env _ _); cbn);
    try (intros t o H; repeat (destruct H as [H|H]; [injection H as <- <-; unfold encrypted; (reflexivity || discriminate || (eexists; split; [reflexivity|split; reflexivity]))|]); destruct H);
    try (eexists _, _, _; split; [reflexivity|split; [discriminate|intros H; try discriminate; now destruct H]]);
    eexists _, _; (split; [reflexivity|split]); try (intros H; discriminate || now destruct H); try (intros t p H; repeat (destruct H as [H|H]; [injection H as <- <-; unfold encrypted; discriminate|]); destruct H).
Qed.
Print Assumptions C41_attempts_obey_mode.
(** A connection is handed out only if the last attempt was established; with [require] it is encrypted, with
    [verify_ca] the certificate is trusted, with [verify_full] it also carries the server's name. This part holds for
    every driver that, given a context, uses it and nothing else. *)
Lemma try_all_connected env l : forall sofar r o, try_all env l sofar = (r, o) -> o = Established -> exists t n p, In t l /\ r = p ++ [(t, Established)] /\ env n t = Established.
Proof.
  induction l as [|t l IH]; intros sofar r o H E; cbn in H; [injection H as <- <-; discriminate|].
  destruct (env (List.length sofar) t) eqn:X.
  - injection H as <- <-. exists t, (List.length sofar), sofar. repeat split; auto. now left.
  - destruct l as [|u l]; [injection H as <- <-; discriminate|]. destruct (IH _ _ _ H E) as (t' & n & p & I & Hr & He). exists t', n, p. split; [now right|auto].
  - destruct l as [|u l]; [injection H as <- <-; discriminate|]. destruct (IH _ _ _ H E) as (t' & n & p & I & Hr & He). exists t', n, p. split; [now right|auto].
Qed.
Theorem C41_connection_is_as_secure_as_required : forall D env s m l,
  (forall c, D (Some c) = [Tls c]) -> honest s env -> m = Require \/ m = VerifyCA \/ m = VerifyFull ->
  open_connection D env (Some m) = (l, Established) ->
  exists t, connected l Established t /\ encrypted t /\
    (m = VerifyCA \/ m = VerifyFull -> sv_trusted s = true) /\ (m = VerifyFull -> sv_name s = true).
Proof.
  intros D env s m l HD Hs Hm H.
  assert (G : exists c, create_context (Some m) = Ok (Some c) /\ (m = VerifyCA \/ m = VerifyFull -> verify_mode c = CertRequired) /\ (m = VerifyFull -> check_hostname c = true) /\ try_all env (D (Some c)) [] = (l, Established)).
  { destruct Hm as [-> | [-> | ->]]; cbn in H; unfold open_with in H; cbn in H; (eexists; split; [reflexivity|split; [|split; [|exact H]]]); try reflexivity; try discriminate; intros [E|E]; discriminate || reflexivity. }
  destruct G as (c & _ & Hv & Hh & Ht). rewrite HD in Ht. destruct (try_all_connected env [Tls c] [] l Established Ht eq_refl) as (t & n & p & It & Hl & He).
  destruct It as [<-|[]]. exists (Tls c). split; [split; [reflexivity|eauto]|]. split; [discriminate|]. destruct (Hs n (Tls c) He) as [H1 H2]. auto.
Qed.
Print Assumptions C41_connection_is_as_secure_as_required.
(** The attempts of [require] and the verifying modes are encrypted whatever fails, for such drivers. *)
Theorem C41_never_plaintext : forall D env m t o,
  (forall c, D (Some c) = [Tls c]) -> m = Require \/ m = VerifyCA \/ m = VerifyFull ->
  In (t, o) (fst (open_connection D env (Some m))) -> encrypted t.
Proof.
  intros D env m t o HD Hm H. destruct Hm as [-> | [-> | ->]]; cbn in H; unfold open_with in H; cbn in H; rewrite HD in H; cbn in H;
    repeat (destruct (env _ _); cbn in H); destruct H as [H|[]]; injection H as <- <-; discriminate.
Qed.
Print Assumptions C41_never_plaintext.
(** A mode never makes more than two attempts with a single-transport driver, and the second only after a caught failure. *)
Theorem C41_at_most_two_attempts : forall env m, List.length (fst (open_connection plain_driver env m)) <= 2.
Proof. intros env m. destruct m as [[]|]; cbn; unfold open_with; cbn; repeat (destruct (env _ _); cbn); auto. Qed.
Print Assumptions C41_at_most_two_attempts.
(** [prefer] and [allow] make a second attempt with the other transport if, and only if, the first one failed with the
    caught class of errors; every mode ends as its last attempt did. *)
Definition fell_back (l : list attempt) : Prop :=
  exists c o, l = [(Plain, Caught); (Tls c, o)] \/ l = [(Tls c, Caught); (Plain, o)].
Theorem C41_fallback : forall env m l o, open_connection plain_driver env m = (l, o) ->
  (exists r t, l = r ++ [(t, o)]) /\
  (m = Some Prefer \/ m = Some Allow -> (exists t, l = [(t, o)] /\ o <> Caught) \/ fell_back l) /\
  (m <> Some Prefer -> m <> Some Allow -> List.length l = 1).
Proof.
  intros env m l o H. destruct m as [[]|]; cbn in H; unfold open_with in H; cbn in H; repeat (destruct (env _ _) eqn:? in H; cbn in H); injection H as <- <-;
  (split; [first [now exists [], Plain|now exists [_], Plain|eexists [], _; reflexivity|eexists [_], _; reflexivity]|]);
  (split; [intros [E|E]; try discriminate E|intros A B; first [reflexivity|now destruct A|now destruct B]]);
  first [left; eexists; split; [reflexivity|discriminate]|right; do 2 eexists; first [left; reflexivity|right; reflexivity]].
Qed.
Print Assumptions C41_fallback.

(** Findings. asyncpg takes a missing context as its own mode "prefer": [disable] negotiates TLS, [allow] starts with it. *)
Theorem C41_postgresql_disable_refuted : ~ (forall env m, policy m (fst (open_connection prefer_driver env m))).
Proof. intros H. specialize (H (fun _ _ => Established) (Some Disable)). cbn in H. specialize (H _ _ (or_introl eq_refl)). discriminate H. Qed.
Print Assumptions C41_postgresql_disable_refuted.
Theorem C41_postgresql_allow_refuted : exists env, ~ policy (Some Allow) (fst (open_connection prefer_driver env (Some Allow))).
Proof. exists (fun _ _ => Established). cbn. intros (o & r & H & _). discriminate H. Qed.
Print Assumptions C41_postgresql_allow_refuted.
(** The SQL Server and Oracle connections do not read the mode: [verify_full] accepts any certificate, [require] is plaintext. *)
Theorem C41_mssql_verify_refuted : exists env s, honest s env /\ sv_trusted s = false /\ snd (open_mssql env (Some VerifyFull)) = Established.
Proof.
  exists (fun _ t => match t with Tls (Ctx false CertNone) => Established | _ => Other end), (Server false false). split; [|split; reflexivity].
  intros n [|[[] []]] H; try discriminate H; split; discriminate.
Qed.
Print Assumptions C41_mssql_verify_refuted.
Theorem C41_oracle_require_refuted : exists env l, open_oracle env (Some Require) = (l, Established) /\ ~ policy (Some Require) l.
Proof. exists (fun _ _ => Established), [(Plain, Established)]. split; [reflexivity|]. intros H. exact (H Plain Established (or_introl eq_refl) eq_refl). Qed.
Print Assumptions C41_oracle_require_refuted.

(** a server without TLS: [prefer] falls back to plaintext, [require] gives up *)
Definition no_tls : environment := fun _ t => match t with Plain => Established | Tls _ => Caught end.
Example C41_example : open_connection plain_driver no_tls (Some Prefer) = ([(Tls (Ctx false CertNone), Caught); (Plain, Established)], Established)
  /\ open_connection plain_driver no_tls (Some Require) = ([(Tls (Ctx false CertNone), Caught)], Caught)
  /\ honest (Server false false) no_tls.
Proof. split; [reflexivity|]. split; [reflexivity|]. intros n [|c] H; [exact I|discriminate H]. Qed.
Example C41_example2 : let env := (fun _ t => match t with Plain => Caught | Tls _ => Established end) in
  open_connection plain_driver env (Some VerifyFull) = ([(Tls (Ctx true CertRequired), Established)], Established) /\ honest (Server true true) env.
Proof. split; [reflexivity|]. intros n [|c] H; [exact I|split; reflexivity]. Qed.
