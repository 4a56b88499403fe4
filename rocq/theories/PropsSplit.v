(** C44: script splitting. *)
From Verif Require Import PyStr QuoteModel ObjectDict Types Objects SqlAst Ddl Mutate Render Split SplitSpec SplitProofs.
Open Scope string_scope.

Lemma visible_clean s : ends_in_visible s -> ends_clean s.
Proof.
  intros (p & c & -> & H). exists p, c. split; [reflexivity|]. destruct (strippable c) eqn:E; [|reflexivity]. destruct H. unfold strippable, in_class in E.
  apply existsb_exists in E as (x & I & Ex). apply Ascii.eqb_eq in Ex. now subst x.
Qed.
(** Redshift: exactly the statements, in order (the separating line feed stays in front), for every list of statements
    none of which has a line ending in a semicolon; only the last one must not end in a blank or semicolon. *)
Theorem C44_redshift_split : forall bodies b,
  (forall x, In x (bodies ++ [b])%list -> ~ has_line_ending_in_semicolon x) -> ends_in_visible b ->
  Forall2 same_statement (redshift_statements (script (bodies ++ [b])%list)) (bodies ++ [b])%list.
Proof.
  intros bodies b N V. unfold redshift_statements, script. change (fun x => x ++ ";") with term. rewrite (script_split bodies b N (visible_clean b V)).
  destruct (bodies ++ [b])%list as [|x r]; [constructor|]. constructor; [now left|]. clear. induction r as [|y r IH]; constructor; [now right|exact IH].
Qed.
Print Assumptions C44_redshift_split.
Theorem C44_oracle_split : forall bodies b,
  (forall x, In x (bodies ++ [b])%list -> ~ has_line_ending_in_semicolon x) -> ends_in_visible b ->
  starts_with "BEGIN" (script (bodies ++ [b])%list) = false ->
  Forall2 same_statement (oracle_statements (script (bodies ++ [b])%list)) (bodies ++ [b])%list.
Proof. intros bodies b N V B. unfold oracle_statements. rewrite B. now apply C44_redshift_split. Qed.
Print Assumptions C44_oracle_split.
(** A PL/SQL block is passed on as it is. *)
Theorem C44_oracle_block : forall s, starts_with "BEGIN" s = true -> oracle_statements s = [s].
Proof. intros s H. unfold oracle_statements. now rewrite H. Qed.
Print Assumptions C44_oracle_block.
(** If a statement is refused by the database, exactly the statements before it have been executed. *)
Theorem C44_stops_at_first_failure : forall ok l, exists k, fst (execute_each ok l) = firstn k l /\
  (snd (execute_each ok l) = true -> fst (execute_each ok l) = l) /\ (snd (execute_each ok l) = false -> exists s, nth_error l k = Some s /\ ok s = false).
Proof.
  intros ok. induction l as [|s l (k & H1 & H2 & H3)]; [exists 0; split; [reflexivity|split; [reflexivity|discriminate]]|]. cbn [execute_each]. destruct (ok s) eqn:E.
  - destruct (execute_each ok l) as [d b]. cbn [fst snd] in *. exists (S k). cbn [firstn nth_error]. split; [now rewrite H1|]. split; [intros X; now rewrite H2|exact H3].
  - exists 0. split; [reflexivity|]. split; [discriminate|]. intros _. exists s. auto.
Qed.
Print Assumptions C44_stops_at_first_failure.

(** ** Generated scripts: every statement of the Oracle generator is terminated by a semicolon and does not begin a block. *)
Lemma ends_app p t : (exists b, t = b ++ ";") -> exists b, p ++ t = b ++ ";".
Proof. intros [b ->]. exists (p ++ b). now rewrite append_assoc. Qed.
Fixpoint ends_semi (s : string) : bool := match s with "" => false | String c "" => Ascii.eqb c SEMI | String _ r => ends_semi r end.
Lemma ends_semi_true s : ends_semi s = true -> exists b, s = b ++ ";".
Proof.
  induction s as [|c s IH]; [discriminate|]. cbn [ends_semi]. destruct s as [|d s]; intros H; [apply Ascii.eqb_eq in H; subst c; now exists ""|].
  destruct (IH H) as [b E]. exists (String c b). now rewrite E.
Qed.
Ltac fin := solve [repeat first [apply ends_semi_true; reflexivity | apply ends_app]].
Lemma ok_inj {A} (a b : A) : Ok a = Ok b -> a = b.
Proof. now intros [= ->]. Qed.
Lemma oracle_terminated s t : render DOracle s = Ok t -> (forall q acts, s <> SAlterStruct q acts) -> (exists b, t = b ++ ";") /\ forall r, starts_with "BEGIN" (t ++ r) = false.
Proof.
  intros H N. destruct s as [ie n|ca n|q vs|q ms|q|q n|q v|q acts|q cols pn pk cm|q|q acts|q c|q col c|q c|q c|q cols rows oc|q src col|q nc oc ref];
    cbn [render] in H; unfold enum_create_text in H; try (destruct ie); try (destruct ca);
    try (apply ok_inj in H; subst t; split; [fin|reflexivity]).
  - destruct (map_res _ ms); cbn [bind] in H; [|discriminate]. apply ok_inj in H; subst t. split; [fin|reflexivity].
  - destruct (N q acts eq_refl).
  - destruct (map_res _ cols); cbn [bind] in H; [|discriminate]. apply ok_inj in H; subst t. split; [|reflexivity]. destruct cm; fin.
  - unfold render_alter in H. destruct (map_res _ acts); cbn [bind] in H; [|discriminate]. apply ok_inj in H; subst t. split; [fin|reflexivity].
  - destruct (map_res _ rows); cbn [bind] in H; [|discriminate]. apply ok_inj in H; subst t. split; [|reflexivity]. destruct oc; fin.
Qed.
(** Hence a generated Oracle script is executed statement by statement. *)
Theorem C44_generated_oracle_script : forall ss texts,
  (forall q acts, ~ In (SAlterStruct q acts) ss) -> ss <> [] -> map_res (render DOracle) ss = Ok texts ->
  exists bodies, texts = map (fun b => b ++ ";") bodies /\
  ((forall x, In x bodies -> ~ has_line_ending_in_semicolon x) -> ends_in_visible (last bodies "") ->
   Forall2 same_statement (oracle_statements (join_str NL texts)) bodies).
Proof.
  intros ss texts N Ne H.
  assert (G : forall ss texts, (forall q acts, ~ In (SAlterStruct q acts) ss) -> map_res (render DOracle) ss = Ok texts -> exists bodies, texts = map (fun b => b ++ ";") bodies /\ Forall (fun t => forall r, starts_with "BEGIN" (t ++ r) = false) texts).
  { clear. induction ss as [|s ss IH]; intros texts N H; cbn in H; [injection H as <-; exists []; split; constructor|].
    destruct (render DOracle s) as [t|] eqn:R; cbn in H; [|discriminate]. destruct (map_res (render DOracle) ss) as [ts|] eqn:M; cbn in H; [|discriminate]. injection H as <-.
    destruct (IH ts) as (bs & -> & F); [intros q acts I; apply (N q acts); now right|reflexivity|].
    destruct (oracle_terminated s t R) as [[b ->] B]; [intros q acts ->; apply (N q acts); now left|]. exists (b :: bs). split; [reflexivity|]. constructor; assumption. }
  destruct (G ss texts N H) as (bodies & -> & F). exists bodies. split; [reflexivity|]. intros L V.
  destruct bodies as [|b0 bs] eqn:Eb using rev_ind; [destruct V as (p & c & E & _); destruct p; discriminate E|]. clear Eb IHbs. rename b0 into b.
  rewrite last_last in V.
  change (join_str NL (map (fun b => b ++ ";") (bs ++ [b])%list)) with (script (bs ++ [b])%list). apply C44_oracle_split; [exact L|exact V|].
  unfold script. destruct bs as [|x bs]; cbn [app map] in F |- *.
  - inversion F as [|? ? F1 _]; subst. specialize (F1 ""). rewrite append_nil_r in F1. exact F1.
  - inversion F as [|? ? F1 _]; subst. destruct (map (fun b => b ++ ";") (bs ++ [b])%list) eqn:E; [destruct bs; discriminate E|]. cbn [join_str]. apply F1.
Qed.
Print Assumptions C44_generated_oracle_script.

(** Finding: string literals are not escaped for Oracle, so an enumeration label with a line that ends in a semicolon
    tears its INSERT statement apart. *)
Definition torn : stmt := SInsert (Prefixed None "color") ["value"] [PStr ("a;" ++ NL ++ "b")] NoClause.
Theorem C44_literal_refuted : exists s t, render DOracle s = Ok t /\ oracle_statements t <> [rstrip t].
Proof. exists torn. eexists. split; [reflexivity|]. vm_compute. discriminate. Qed.
Print Assumptions C44_literal_refuted.
(** Finding: a block followed by another statement is passed on as a single statement. *)
Theorem C44_block_then_statement_refuted : exists bodies, ~ Forall2 same_statement (oracle_statements (script bodies)) bodies.
Proof. exists ["BEGIN NULL; END"; "DROP TABLE t"]. intros H. inversion H as [|? ? ? ? _ H2]. vm_compute in H2. inversion H2. Qed.
Print Assumptions C44_block_then_statement_refuted.

Example C44_example : redshift_statements (script ["CREATE TABLE t (" ++ NL ++ "id int)"; "INSERT INTO t VALUES ('a;b')"])
  = ["CREATE TABLE t (" ++ NL ++ "id int)"; NL ++ "INSERT INTO t VALUES ('a;b')"].
Proof. reflexivity. Qed.
Example C44_hypotheses : (forall x, In x ["CREATE TABLE t"; "INSERT INTO t VALUES ('a;b')"] -> ~ has_line_ending_in_semicolon x) /\ ends_in_visible "INSERT INTO t VALUES ('a;b')".
Proof.
  split.
  - intros x H (a & b & E). assert (Z : forall x a b, x = a ++ ";" ++ NL ++ b -> has_char LF x = true).
    { clear. intros x a b ->. induction a as [|c a IH]; [reflexivity|]. change ((Ascii.eqb c LF || has_char LF (a ++ ";" ++ NL ++ b))%bool = true). rewrite IH. apply orb_true_r. }
    apply Z in E. destruct H as [<-|[<-|[]]]; discriminate E.
  - exists "INSERT INTO t VALUES ('a;b'", ")"%char. split; [reflexivity|]. simpl. intuition discriminate.
Qed.
