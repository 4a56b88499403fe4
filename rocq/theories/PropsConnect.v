(** C68: host, port, user, password and database reach the server as they were given. *)
From Verif Require Import PyStr Tls Url Connect ConnectSpec ConnectProofs.
From Coq Require Import Lia.
Open Scope string_scope.
Open Scope list_scope.

(** the parameters can be written without braces, and a port comes with a host *)
Record usable (p : params) : Prop := {
  us_host : forall h, p_host p = Some h -> plain h /\ has_char "," h = false;
  us_port : p_port p <> None -> p_host p <> None;
  us_user : plain_opt (p_user p);
  us_password : plain_opt (p_password p);
  us_database : plain_opt (p_database p) }.
Lemma server_plain h n : plain h -> plain (h ++ "," ++ n_to_str n)%string.
Proof.
  intros (A & B & C). split; [|split].
  - rewrite !has_char_app, A, digits_no by reflexivity. reflexivity.
  - destruct h as [|c h]; [split; discriminate|exact B].
  - intros a E. rewrite <- append_assoc in E. assert (X : exists x d, n_to_str n = (x ++ str1 d)%string /\ is_digit d = true).
    { destruct (n_to_str_nonempty n) as (c & r & En & D). pose proof (n_to_str_digits n) as Y. rewrite En in *. clear -Y. revert c Y. induction r as [|d r IH]; intros c Y.
      - exists "", c. split; [reflexivity|]. cbn in Y. apply Bool.orb_false_iff in Y as [Y _]. now apply Bool.negb_false_iff in Y.
      - cbn [any_char] in Y. apply Bool.orb_false_iff in Y as [_ Y]. destruct (IH d Y) as (x & e & -> & De). exists (String c x), e. auto. }
    destruct X as (x & d & Ex & D). rewrite Ex in E. rewrite <- append_assoc in E. change (str1 d) with (String d "") in E.
    assert (Z : forall u v (c e : ascii), (u ++ String c "" = v ++ String e "")%string -> c = e).
    { clear. induction u as [|y u IH]; intros [|z v] c e; cbn; intros E.
      - now injection E.
      - injection E as _ E. destruct v; discriminate E.
      - injection E as _ E. destruct u; discriminate E.
      - injection E as _ E. eapply IH, E. }
    apply Z in E. subst d. discriminate D.
Qed.
Lemma usable_rest p : usable p -> Forall (fun e : string * option string => fst e <> "" /\ has_char "=" (fst e) = false /\ plain_opt (snd e)) (rest p).
Proof.
  intros [H Po U W D]. unfold rest. apply Forall_app. split.
  - repeat apply Forall_cons; try apply Forall_nil; cbn [fst snd]; (split; [discriminate|]); (split; [reflexivity|]); try assumption; intros s E.
    + unfold server_value in E. destruct (p_port p) as [n|].
      * injection E as <-. destruct (p_host p) as [h|]; [|now destruct Po]. apply server_plain, (H h eq_refl).
      * apply (H s E).
    + injection E as <-. now apply plain_literal.
    + injection E as <-. now apply plain_literal.
  - destruct (p_database p) as [d|]; constructor; [|constructor]. repeat split; try discriminate; injection H0 as <-; apply (D d eq_refl).
Qed.
Lemma attribute_rest p k : usable p -> k <> "DRIVER" -> k <> "APP" ->
  attribute k (mssql_string p) = match find (fun e => String.eqb (fst e) k) (values (rest p)) with Some e => Some (snd e) | None => None end.
Proof.
  intros H A B. unfold attribute. rewrite (reads p (usable_rest p H)). cbn [find fst snd].
  destruct (String.eqb_spec "DRIVER" k) as [X|_]; [now destruct A|]. destruct (String.eqb_spec "APP" k) as [X|_]; [now destruct B|]. reflexivity.
Qed.

(** SQL Server: what the ODBC driver reads from the connection string is what was given; what was not given is not there. *)
Theorem C68_mssql_partial : forall p, usable p ->
  attribute "DRIVER" (mssql_string p) = Some "ODBC Driver 18 for SQL Server" /\
  attribute "UID" (mssql_string p) = p_user p /\
  attribute "PWD" (mssql_string p) = p_password p /\
  attribute "DATABASE" (mssql_string p) = p_database p /\
  match p_host p with
  | Some h => exists s, attribute "SERVER" (mssql_string p) = Some s /\ server s = (h, match p_port p with Some n => Some (Some n) | None => None end)
  | None => attribute "SERVER" (mssql_string p) = None
  end.
Proof.
  intros p H. split; [unfold attribute; now rewrite (reads p (usable_rest p H))|].
  rewrite !attribute_rest by (exact H || discriminate). rewrite !find_values. pose proof H as [Ho Po _ _ _]. unfold rest, server_value.
  destruct (p_user p) as [u|], (p_password p) as [w|], (p_database p) as [d|], (p_host p) as [h|], (p_port p) as [n|];
    try (exfalso; apply Po; [discriminate|reflexivity]); cbn -[n_to_str server append]; repeat split; try reflexivity; eexists; (split; [reflexivity|]); unfold server;
    destruct (Ho h eq_refl) as [_ C].
  all: first [rewrite (upto_none "," h C); reflexivity | cbn [formatted]; change (h ++ "," ++ n_to_str n)%string with (h ++ String "," (n_to_str n))%string; rewrite (upto_app "," h _ C), n_to_str_inv; reflexivity].
Qed.
Print Assumptions C68_mssql_partial.

(** ... and no other setting can be made through the parameters. *)
Theorem C68_mssql_settings : forall p k v, usable p -> attribute k (mssql_string p) = Some v ->
  In k ["SERVER"; "UID"; "PWD"; "DATABASE"] \/
  In (k, v) [("DRIVER", "ODBC Driver 18 for SQL Server"); ("APP", "pysqlsync"); ("LongAsMax", "yes"); ("TrustServerCertificate", "yes")].
Proof.
  intros p k v H. unfold attribute. rewrite (reads p (usable_rest p H)).
  destruct (find _ _) as [[k' v']|] eqn:E; [|discriminate]. intros X. injection X as <-. apply find_some in E as [I E]. apply String.eqb_eq in E. cbn [fst snd] in *. subst k'.
  destruct I as [I|[I|I]]; [injection I as <- <-; right; now left|injection I as <- <-; right; right; now left|].
  unfold values, rest in I. apply in_flat_map in I as ([k' o] & I & J). cbn [fst snd] in J. destruct o as [w|]; [|destruct J]. destruct J as [J|[]]. injection J as -> ->.
  apply in_app_or in I as [I|I].
  - destruct I as [I|[I|[I|[I|[I|[]]]]]]; injection I as <- I2.
    + left. now left.
    + left. right. now left.
    + left. do 2 right. now left.
    + rewrite <- I2. right. do 2 right. now left.
    + rewrite <- I2. right. do 3 right. now left.
  - left. do 3 right. left. destruct (p_database p); [destruct I as [I|[]]; now injection I|destruct I].
Qed.
Print Assumptions C68_mssql_settings.

(** Oracle: user and password are passed as they are; host, port and service name (or the defaults) are read from the connect descriptor. *)
Theorem C68_oracle_partial : forall p, (forall h, p_host p = Some h -> h <> "" /\ has_char ":" h = false) -> p_port p <> Some 0%N -> p_database p <> Some "" ->
  exists dsn, oracle_arguments p = (p_user p, p_password p, dsn) /\
    easy dsn = Some (match p_host p with Some h => h | None => "localhost" end, match p_port p with Some n => n | None => 1521%N end,
                     match p_database p with Some d => d | None => "FREEPDB1" end).
Proof.
  intros p H P D. eexists. split; [reflexivity|].
  assert (A : or_text (p_host p) "localhost" = match p_host p with Some h => h | None => "localhost" end) by (destruct (p_host p) as [[|c h]|]; [now destruct (H "" eq_refl)|reflexivity|reflexivity]).
  assert (B : or_number (p_port p) 1521 = match p_port p with Some n => n | None => 1521%N end) by (destruct (p_port p) as [[|n]|]; congruence || reflexivity).
  assert (C : or_text (p_database p) "FREEPDB1" = match p_database p with Some d => d | None => "FREEPDB1" end) by (destruct (p_database p) as [[|c d]|]; congruence || reflexivity).
  rewrite A, B, C. set (h := match p_host p with Some h => h | None => _ end). set (n := match p_port p with Some n => n | None => _ end). set (d := match p_database p with Some d => d | None => _ end).
  assert (K : has_char ":" h = false) by (unfold h; destruct (p_host p) as [h'|]; [apply (H h' eq_refl)|reflexivity]).
  unfold easy. change (h ++ ":" ++ n_to_str n ++ "/" ++ d)%string with (h ++ String ":" (n_to_str n ++ String "/" d))%string. rewrite (upto_app ":" h _ K).
  rewrite (upto_app "/" (n_to_str n) d) by (apply digits_no; reflexivity). rewrite n_to_str_inv. destruct (n_to_str_nonempty n) as (c & r & -> & _). reflexivity.
Qed.
Print Assumptions C68_oracle_partial.

(** ** What does not hold *)
(** A semicolon in a password ends it, and what follows is taken for further keywords: here another database is opened. *)
Definition semicolon : params := Params (Some "db.example.com") (Some 1433%N) (Some "app") (Some "secret;DATABASE=master") (Some "app") None.
Theorem C68_mssql_semicolon_refuted : attribute "PWD" (mssql_string semicolon) = Some "secret" /\ attribute "DATABASE" (mssql_string semicolon) = Some "master".
Proof. split; vm_compute; reflexivity. Qed.
Print Assumptions C68_mssql_semicolon_refuted.
(** A password that begins with a brace spoils the whole string. *)
Theorem C68_mssql_brace_refuted : forall k, attribute k (mssql_string (Params (Some "localhost") None (Some "sa") (Some "{9xQ") None None)) = None.
Proof. intros k. unfold attribute. vm_compute. reflexivity. Qed.
Print Assumptions C68_mssql_brace_refuted.
(** A port without a host: the host is called None. *)
Theorem C68_mssql_no_host_refuted : forall n u w d, plain_opt u -> plain_opt w -> plain_opt d ->
  exists s, attribute "SERVER" (mssql_string (Params None (Some n) u w d None)) = Some s /\ server s = ("None", Some (Some n)).
Proof.
  intros n u w d U W D. set (p := Params None (Some n) u w d None).
  assert (E : mssql_string p = mssql_string (Params (Some "None") (Some n) u w d None)) by reflexivity. rewrite E.
  assert (Us : usable (Params (Some "None") (Some n) u w d None)).
  { constructor; cbn; auto; try discriminate. intros h X. injection X as <-. split; [now apply plain_literal|reflexivity]. }
  exact (proj2 (proj2 (proj2 (proj2 (C68_mssql_partial _ Us))))).
Qed.
Print Assumptions C68_mssql_no_host_refuted.
(** An IPv6 address is written into Oracle's connect descriptor without brackets: no port can be read from it. *)
Theorem C68_oracle_ipv6_refuted : easy (snd (oracle_arguments (Params (Some "::1") (Some 1521%N) (Some "sys") None None None))) = None.
Proof. vm_compute. reflexivity. Qed.
Print Assumptions C68_oracle_ipv6_refuted.

(** ** Examples *)
Definition ordinary : params := Params (Some "db.example.com") (Some 1433%N) (Some "app user") (Some "p{w}d=1,2'") (Some "shop") None.
Example C68_example_usable : usable ordinary.
Proof.
  constructor; cbn; try discriminate; intros s E; injection E as <-; try (split; [|reflexivity]); (split; [reflexivity|]); (split; [split; discriminate|]); intros a X;
    repeat (destruct a as [|? a]; [discriminate X|]; cbn in X; injection X as _ X); destruct a; discriminate X.
Qed.
Example C68_example_string : mssql_string ordinary =
  "DRIVER={ODBC Driver 18 for SQL Server};APP=pysqlsync;SERVER=db.example.com,1433;UID=app user;PWD=p{w}d=1,2';LongAsMax=yes;TrustServerCertificate=yes;DATABASE=shop".
Proof. reflexivity. Qed.
Example C68_example_oracle : oracle_arguments (Params None None (Some "system") (Some "secret") None None) = (Some "system", Some "secret", "localhost:1521/FREEPDB1").
Proof. reflexivity. Qed.
