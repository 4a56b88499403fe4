(** The parsers of SqlText.v on the tokens of pieces; column definitions. *)
From Verif Require Import PyStr QuoteModel QuoteSpec QuoteProofs Types Objects SqlAst Ddl Mutate Render SqlText TextSpec LexProofs TextProofs1.
From Coq Require Import String List Bool Arith Ascii ZArith Lia.
Import ListNotations.
Open Scope string_scope.
Open Scope list_scope.

Ltac walk t := destruct (is_sym ";" t) eqn:?; [discriminate|]; destruct (is_sym "(" t) eqn:?; [|destruct (is_sym ")" t) eqn:?].

Lemma statements_bal a r l : bal no_stop 0 a = true -> statements r = Some l -> statements (a ++ C ";" :: r) = Some (a :: l).
Proof.
  intros A R. assert (H : forall k, bal no_stop k a = true -> statements (a ++ C ";" :: r) = Some (a :: l)); [|eauto].
  clear A. induction a as [|t a IH]; intros k A.
  - simpl. now rewrite R.
  - cbn [bal] in A. cbn [app statements]. walk t; [rewrite (IH _ A); reflexivity| destruct k; [discriminate|]; rewrite (IH _ A); reflexivity|].
    destruct (no_stop t && Nat.eqb k 0); [discriminate|]. rewrite (IH _ A). reflexivity.
Qed.
Lemma inside_bal a r : bal no_stop 0 a = true -> inside 0 (a ++ C ")" :: r) = Some (a, r).
Proof.
  assert (H : forall k, bal no_stop k a = true -> inside k (a ++ C ")" :: r) = Some (a, r)); [|auto].
  induction a as [|t a IH]; intros k A.
  - simpl in A |- *. apply Nat.eqb_eq in A. now subst k.
  - cbn [bal] in A. cbn [app inside]. walk t; [now rewrite (IH _ A)| destruct k; [discriminate|]; now rewrite (IH _ A)|].
    destruct (no_stop t && Nat.eqb k 0); [discriminate|]. now rewrite (IH _ A).
Qed.
Lemma commas_bal x r y l : bal item_stop 0 x = true -> commas 0 r = y :: l -> commas 0 (x ++ r) = (x ++ y) :: l.
Proof.
  intros X R. assert (H : forall k, bal item_stop k x = true -> commas k (x ++ r) = (x ++ y) :: l); [|auto].
  clear X. induction x as [|t x IH]; intros k A.
  - simpl in A |- *. apply Nat.eqb_eq in A. now subst k.
  - cbn [bal] in A. cbn [app commas]. walk t; [now rewrite (IH _ A)| destruct k; [discriminate|]; simpl pred; now rewrite (IH _ A)|].
    unfold item_stop in A. destruct (is_sym "," t && Nat.eqb k 0); [discriminate|]. now rewrite (IH _ A).
Qed.
Lemma commas_join l : l <> [] -> Forall (fun x => bal item_stop 0 x = true) l -> commas 0 (join_toks l) = l.
Proof.
  intros N H. induction H as [|x l Hx H IH]; [congruence|]. destruct l as [|y l].
  - simpl join_toks. rewrite <- (app_nil_r x) at 1. rewrite (commas_bal x [] [] []); [now rewrite app_nil_r|exact Hx|reflexivity].
  - change (join_toks (x :: y :: l)) with (x ++ C "," :: join_toks (y :: l)).
    rewrite (commas_bal x _ [] (y :: l)); [now rewrite app_nil_r|exact Hx|]. cbn [commas is_sym Ascii.eqb andb Nat.eqb].
    change (commas 0 (C "," :: join_toks (y :: l))) with ([] :: commas 0 (join_toks (y :: l))). rewrite IH; [reflexivity|discriminate].
Qed.
Definition stops (r : list token) : Prop := match r with [] => True | t :: _ => is_word clause_words t = true end.
Lemma until_stop r : stops r -> until_clause 0 r = ([], r).
Proof.
  destruct r as [|t r]; [reflexivity|]. simpl stops. intros H. cbn [until_clause].
  destruct t as [w|n|v|c]; try discriminate H. cbn [is_sym]. rewrite H. reflexivity.
Qed.
Lemma until_bal a r : bal clause_stop 0 a = true -> stops r -> until_clause 0 (a ++ r) = (a, r).
Proof.
  intros A S. assert (H : forall k, bal clause_stop k a = true -> until_clause k (a ++ r) = (a, r)); [|auto].
  clear A. induction a as [|t a IH]; intros k A.
  - simpl in A |- *. apply Nat.eqb_eq in A. subst k. now apply until_stop.
  - cbn [bal] in A. cbn [app until_clause]. walk t; [now rewrite (IH _ A)| destruct k; [discriminate|]; simpl pred; now rewrite (IH _ A)|].
    unfold clause_stop in A. destruct (is_word clause_words t && Nat.eqb k 0) eqn:E.
    + apply andb_true_iff in E as [E1 E2]. rewrite E1, E2, orb_true_r in A. discriminate.
    + destruct ((is_sym "," t || is_word clause_words t) && Nat.eqb k 0); [discriminate|]. now rewrite (IH _ A).
Qed.
Lemma typ_app a r : ty_toks a -> stops r -> typ (a ++ r) = Some (a, r).
Proof. intros [N B] S. unfold typ. rewrite (until_bal a r B S). destruct a; [congruence|reflexivity]. Qed.
Lemma typ_end a : ty_toks a -> typ a = Some (a, []).
Proof. intros H. rewrite <- (app_nil_r a) at 1. apply typ_app; [exact H|exact Logic.I]. Qed.
Definition expr_toks (ts : list token) : Prop :=
  match ts with [] => False | W _ :: r => bal clause_stop 0 r = true | _ => bal clause_stop 0 ts = true end.
Lemma expr_app a r : expr_toks a -> stops r -> expr (a ++ r) = Some (a, r).
Proof.
  destruct a as [|[w|n|v|c] a]; cbn [expr_toks]; intros H S; [destruct H| | | |]; unfold expr; cbn [app].
  - now rewrite (until_bal a r H S).
  - change (I n :: a ++ r) with ((I n :: a) ++ r). now rewrite (until_bal _ r H S).
  - change (L v :: a ++ r) with ((L v :: a) ++ r). now rewrite (until_bal _ r H S).
  - change (C c :: a ++ r) with ((C c :: a) ++ r). now rewrite (until_bal _ r H S).
Qed.
Lemma expr_end a : expr_toks a -> expr a = Some (a, []).
Proof. intros H. rewrite <- (app_nil_r a) at 1. apply expr_app; [exact H|exact Logic.I]. Qed.
Lemma expr_item a : expr_toks a -> bal item_stop 0 a = true.
Proof.
  destruct a as [|[w|n|v|c] a]; cbn [expr_toks]; intros H; [destruct H| | | |]; try (apply bal_item; exact H).
  change (bal item_stop 0 a = true). now apply bal_item.
Qed.
Lemma expr_nonempty a : expr_toks a -> a <> [].
Proof. destruct a; [intros []|discriminate]. Qed.
Lemma expr_ok_toks d e : expr_ok d e -> exists ts, lex d e = Some ts /\ expr_toks ts.
Proof. intros (ts & A & B). exists ts. split; [exact A|]. exact B. Qed.

Lemma name_parse q r : sym "." r = None -> object_name (name_toks q ++ r) = Some ((scope_id q, local_id q), r).
Proof.
  intros H. unfold name_toks, object_name. destruct (scope_id q) as [ns|]; cbn [app ident].
  - reflexivity.
  - now rewrite H.
Qed.
Lemma idents_parse cs r : cs <> [] -> idents (ident_toks cs ++ C ")" :: r) = Some (cs, r).
Proof.
  intros N. unfold ident_toks. induction cs as [|c cs IH]; [congruence|]. destruct cs as [|c2 cs]; [reflexivity|].
  change (join_toks (map (fun n => [I n]) (c :: c2 :: cs))) with (I c :: C "," :: join_toks (map (fun n => [I n]) (c2 :: cs))).
  change (idents ((I c :: C "," :: join_toks (map (fun n => [I n]) (c2 :: cs))) ++ C ")" :: r))
    with (match idents (join_toks (map (fun n => [I n]) (c2 :: cs)) ++ C ")" :: r) with Some (l, r2) => Some (c :: l, r2) | None => None end).
  rewrite IH; [reflexivity|discriminate].
Qed.
Lemma columns_parse cs r : cs <> [] -> columns (C "(" :: ident_toks cs ++ C ")" :: r) = Some (cs, r).
Proof. intros N. unfold columns. cbn [sym]. change (Ascii.eqb "(" "(") with true. cbn iota. now apply idents_parse. Qed.
Lemma lits_parse vs r : vs <> [] -> lits (join_toks (map (fun v => [L v]) vs) ++ C ")" :: r) = Some (vs, r).
Proof.
  intros N. induction vs as [|c cs IH]; [congruence|]. destruct cs as [|c2 cs]; [reflexivity|].
  change (join_toks (map (fun n => [L n]) (c :: c2 :: cs))) with (L c :: C "," :: join_toks (map (fun n => [L n]) (c2 :: cs))).
  change (lits ((L c :: C "," :: join_toks (map (fun n => [L n]) (c2 :: cs))) ++ C ")" :: r))
    with (match lits (join_toks (map (fun n => [L n]) (c2 :: cs)) ++ C ")" :: r) with Some (l, r2) => Some (c :: l, r2) | None => None end).
  rewrite IH; [reflexivity|discriminate].
Qed.
Lemma each_all {A B} (f : A -> option B) l ys : Forall2 (fun x y => f x = Some y) l ys -> each f l = Some ys.
Proof. induction 1 as [|x y l ys H _ IH]; [reflexivity|]. cbn [each]. now rewrite H, IH. Qed.

(** ** Column definitions *)
Definition nn_toks (b : bool) : list token := if b then [W "NOT"; W "NULL"] else [].
Definition df_toks (o : option (option string * list token)) : list token :=
  match o with
  | None => []
  | Some (None, e) => W "DEFAULT" :: e
  | Some (Some n, e) => W "CONSTRAINT" :: I n :: W "DEFAULT" :: e end.
Definition id_toks (d : dialect) (b : bool) : list token := if b then map W (identity_words d) else [].
Definition cm_toks (o : option string) : list token := match o with Some s => [W "COMMENT"; L s] | None => [] end.
Definition clause_toks (d : dialect) (nn : bool) (df : option (option string * list token)) (id : bool) (cm : option string) : list token :=
  match d with
  | DOracle => df_toks df ++ nn_toks nn ++ id_toks d id ++ cm_toks cm
  | _ => nn_toks nn ++ df_toks df ++ id_toks d id ++ cm_toks cm end.
Definition df_wf (o : option (option string * list token)) : Prop := match o with Some (_, e) => expr_toks e | None => True end.

Lemma df_bal df : df_wf df -> bal item_stop 0 (df_toks df) = true.
Proof.
  destruct df as [[[n|] e]|]; simpl df_wf; intros H; [| |reflexivity]; apply expr_item in H.
  - exact H.
  - exact H.
Qed.
Lemma clause_bal d nn df id cm : df_wf df -> bal item_stop 0 (clause_toks d nn df id cm) = true.
Proof.
  intros H. apply df_bal in H.
  assert (A : bal item_stop 0 (nn_toks nn) = true) by (destruct nn; reflexivity).
  assert (B : bal item_stop 0 (id_toks d id) = true) by (destruct id; [destruct d; reflexivity|reflexivity]).
  assert (D : bal item_stop 0 (cm_toks cm) = true) by (destruct cm; reflexivity).
  destruct d; cbn [clause_toks]; repeat apply bal_app; auto.
Qed.
Lemma clause_stops d nn df id cm : stops (clause_toks d nn df id cm).
Proof.
  destruct d, nn, df as [[[n|] e]|], id, cm; cbn; exact Logic.I || reflexivity.
Qed.
Lemma step_nn d k r n t df id cm b : clauses d (S k) (nn_toks b ++ r) (PC n t false df id cm)
  = clauses d (if b then k else S k) r (PC n t b df id cm).
Proof. destruct b; reflexivity. Qed.
Lemma step_df d k r n t nn id cm df : df_wf df -> stops r ->
  clauses d (S k) (df_toks df ++ r) (PC n t nn None id cm)
  = clauses d (match df with Some _ => k | None => S k end) r (PC n t nn df id cm).
Proof.
  destruct df as [[[x|] e]|]; intros H S; [| |reflexivity]; cbn [df_wf] in H.
  - change (match expr (e ++ r) with
            | Some (e', r3) => clauses d k r3 (PC n t nn (Some (Some x, e')) id cm)
            | None => None end = clauses d k r (PC n t nn (Some (Some x, e)) id cm)).
    now rewrite (expr_app e r H S).
  - change (match expr (e ++ r) with
            | Some (e', r3) => clauses d k r3 (PC n t nn (Some (None, e')) id cm)
            | None => None end = clauses d k r (PC n t nn (Some (None, e)) id cm)).
    now rewrite (expr_app e r H S).
Qed.
Lemma step_id d k r n t nn df cm b : clauses d (S k) (id_toks d b ++ r) (PC n t nn df false cm)
  = clauses d (if b then k else S k) r (PC n t nn df b cm).
Proof. destruct b; [|reflexivity]. destruct d; reflexivity. Qed.
Lemma step_cm d k n t nn df id cm : clauses d (S k) (cm_toks cm) (PC n t nn df id None) = Some (PC n t nn df id cm).
Proof. destruct cm; [|reflexivity]. destruct k; destruct d; reflexivity. Qed.
Lemma stops_tail d nn id cm : stops (id_toks d id ++ cm_toks cm) /\ stops (nn_toks nn ++ id_toks d id ++ cm_toks cm).
Proof. split; destruct d, nn, id, cm; exact Logic.I || reflexivity. Qed.
Lemma clauses_parse d n t nn df id cm : df_wf df ->
  clauses d 8 (clause_toks d nn df id cm) (PC n t false None false None) = Some (PC n t nn df id cm).
Proof.
  intros H. destruct (stops_tail d nn id cm) as [S1 S2].
  assert (A : clauses d 8 (nn_toks nn ++ df_toks df ++ id_toks d id ++ cm_toks cm) (PC n t false None false None) = Some (PC n t nn df id cm)).
  { rewrite step_nn. assert (K : exists k, (if nn then 7 else 8) = S (S (S k))) by (destruct nn; eauto). destruct K as [k ->].
    rewrite (step_df d _ _ n t nn false None df H S1).
    assert (K : exists k', match df with Some _ => S (S k) | None => S (S (S k)) end = S (S k')) by (destruct df; eauto). destruct K as [k' ->].
    rewrite step_id. assert (K : exists k, (if id then S k' else S (S k')) = S k) by (destruct id; eauto). destruct K as [k2 ->].
    apply step_cm. }
  assert (B : clauses d 8 (df_toks df ++ nn_toks nn ++ id_toks d id ++ cm_toks cm) (PC n t false None false None) = Some (PC n t nn df id cm)).
  { rewrite (step_df d _ _ n t false false None df H S2).
    assert (K : exists k', match df with Some _ => 7 | None => 8 end = S (S (S k'))) by (destruct df; eauto). destruct K as [k' ->].
    rewrite step_nn. assert (K : exists k, (if nn then S (S k') else S (S (S k'))) = S (S k)) by (destruct nn; eauto). destruct K as [k ->].
    rewrite step_id. assert (K : exists k0, (if id then S k else S (S k)) = S k0) by (destruct id; eauto). destruct K as [k2 ->].
    apply step_cm. }
  destruct d; assumption.
Qed.
Lemma column_parse d n ty nn df id cm : ty_toks ty -> df_wf df ->
  column_definition d (I n :: ty ++ clause_toks d nn df id cm) = Some (PC n ty nn df id cm).
Proof.
  intros T H. unfold column_definition. cbn [ident]. rewrite (typ_app ty _ T (clause_stops _ _ _ _ _)). now apply clauses_parse.
Qed.

(** text of the clauses *)
Lemma lex_nn d (b : bool) : lex d (if b then " NOT NULL" else "") = Some (nn_toks b).
Proof. destruct b; reflexivity. Qed.
Definition df_text (o : option (option string * string)) : string :=
  match o with
  | Some (Some n, e) => " CONSTRAINT " +++ local_quoted n +++ " DEFAULT " +++ e
  | Some (None, e) => " DEFAULT " +++ e
  | None => "" end.
Definition says_df (d : dialect) (df : option (option string * list token)) (o : option (option string * string)) : Prop :=
  match o with None => df = None | Some (k, e) => exists ts, lex d e = Some ts /\ df = Some (k, ts) end.
Lemma lex_df d (o : option (option string * string)) : match o with None => True | Some (_, e) => expr_ok d e end ->
  exists df, lex d (df_text o) = Some (df_toks df) /\ df_wf df /\ says_df d df o /\ lead (df_text o) = true.
Proof.
  destruct o as [[[n|] e]|]; intros H.
  - destruct (expr_ok_toks _ _ H) as (ts & A & B). exists (Some (Some n, ts)). repeat split; [|exact B|now exists ts].
    cbn [df_text df_toks]. apply (lex_app d " CONSTRAINT " _ [W "CONSTRAINT"] _); [reflexivity| |side].
    apply (lex_app d _ _ [I n] _); [apply lex_ident| |side].
    apply (lex_app d " DEFAULT " _ [W "DEFAULT"] _); [reflexivity|exact A|side].
  - destruct (expr_ok_toks _ _ H) as (ts & A & B). exists (Some (None, ts)). repeat split; [|exact B|now exists ts].
    cbn [df_text df_toks]. apply (lex_app d " DEFAULT " _ [W "DEFAULT"] _); [reflexivity|exact A|side].
  - exists None. repeat split.
Qed.
Lemma lex_comment d (q : string -> string) s : lex d (q s) = Some [L s] -> lex d (" COMMENT " +++ q s) = Some [W "COMMENT"; L s].
Proof. intros H. apply (lex_app d " COMMENT " _ [W "COMMENT"] [L s]); [reflexivity|exact H|side]. Qed.
Lemma lex_cm d (o : option string) (q : string -> string) : match o with Some s => lex d (q s) = Some [L s] | None => True end ->
  lex d (match o with Some s => " COMMENT " +++ q s | None => "" end) = Some (cm_toks o)
  /\ lead (match o with Some s => " COMMENT " +++ q s | None => "" end) = true.
Proof. destruct o; intros H; [split; [now apply lex_comment|reflexivity]| split; reflexivity]. Qed.

Lemma Ok_inj {A} (x y : A) : Ok x = Ok y -> x = y.
Proof. congruence. Qed.
(** a column definition is read as meant *)
Definition col_item (d : dialect) (c : SqlAst.coldef) (ts : list token) : Prop :=
  bal item_stop 0 ts = true /\ (exists r, ts = I (cd_name c) :: r) /\ exists p, column_definition d ts = Some p /\ says_col d p c.
Lemma coldef_lex d c s : col_ok d c -> render_coldef d c = Ok s -> exists ts, lex d s = Some ts /\ col_item d c ts.
Proof.
  intros (T & Hdf & Hcm) E. unfold render_coldef in E. apply bind_inv in E as (ty & Ety & E).
  destruct (type_lex d _ _ T Ety) as (tt & Lt & Tt).
  set (o := match d with DDelta => None | _ => cd_default c end).
  assert (Ho : match o with None => True | Some (_, e) => expr_ok d e end).
  { unfold o. destruct d, (cd_default c) as [[k e]|]; try exact Logic.I; apply Hdf. }
  destruct (lex_df d o Ho) as (df & Ldf & Wdf & Sdf & Led).
  set (cm := match d with DMySQL | DDelta | DSnow => cd_comment c | _ => None end).
  set (q := match d with DDelta => delta_quoted_string | DSnow => snow_quoted_string | _ => quote end).
  assert (Lcm : match cm with Some s => lex d (q s) = Some [L s] | None => True end).
  { unfold cm, q. destruct d; try exact Logic.I; destruct (cd_comment c); try exact Logic.I.
    - now apply lex_quote. - apply lex_delta. - apply lex_snow. }
  destruct (lex_cm d cm q Lcm) as [Lcm' Lecm].
  set (ty' := tt ++ charset d (cd_type c)).
  assert (T' : ty_toks ty').
  { destruct Tt as [N B]. unfold ty'. split; [destruct tt; [congruence|discriminate]|]. apply bal_app; [exact B|].
    destruct d; try reflexivity. simpl. destruct (is_enum (cd_type c)); reflexivity. }
  set (cs := match d with DMySQL => if is_enum (cd_type c) then " CHARACTER SET ascii COLLATE ascii_bin" else "" | _ => "" end).
  assert (Lcs : lex d cs = Some (charset d (cd_type c)) /\ lead cs = true).
  { unfold cs, charset. destruct d; try (split; reflexivity). destruct (is_enum (cd_type c)); split; reflexivity. }
  destruct Lcs as [Lcs Lecs].
  assert (Lty : lex d (ty +++ cs) = Some ty') by (apply lex_app; auto).
  set (id := match d with DMySQL => if cd_identity c then " AUTO_INCREMENT" else "" | DMSSQL | DSnow => if cd_identity c then " IDENTITY" else ""
             | _ => if cd_identity c then " GENERATED BY DEFAULT AS IDENTITY" else "" end).
  assert (Lid : lex d id = Some (id_toks d (cd_identity c)) /\ lead id = true).
  { unfold id. destruct d, (cd_identity c); split; reflexivity. }
  destruct Lid as [Lid Leid].
  set (nn := if cd_notnull c then " NOT NULL" else "").
  assert (Lnn : lex d nn = Some (nn_toks (cd_notnull c)) /\ lead nn = true) by (unfold nn; destruct (cd_notnull c); split; reflexivity).
  destruct Lnn as [Lnn Lenn].
  set (cmt := match cm with Some s => " COMMENT " +++ q s | None => "" end) in *.
  exists (I (cd_name c) :: ty' ++ clause_toks d (cd_notnull c) df (cd_identity c) cm).
  assert (S : s = local_quoted (cd_name c) +++ " " +++ (ty +++ cs) +++
            match d with DOracle => df_text o +++ nn +++ id +++ cmt | _ => nn +++ df_text o +++ id +++ cmt end).
  { apply Ok_inj in E. rewrite <- E. unfold cs, id, o, df_text, cmt, cm, q, nn.
    destruct d; rewrite ?append_assoc; cbn [append]; rewrite ?append_nil_r; try reflexivity. }
  split; [|split; [|split]].
  - subst s. apply (lex_app d _ _ [I (cd_name c)] _); [apply lex_ident| |side].
    apply (lex_app d " " _ [] _); [reflexivity| |side].
    assert (X : forall a b ta tb, lex d a = Some ta -> lex d b = Some tb -> lead b = true -> lex d (a +++ b) = Some (ta ++ tb))
      by (intros; apply lex_app; auto).
    assert (Y : lead (id +++ cmt) = true) by (now apply lead_app).
    apply X; [exact Lty| |destruct d; auto using lead_app].
    destruct d; cbn [clause_toks]; repeat (apply X); auto using lead_app.
  - change (bal item_stop 0 (ty' ++ clause_toks d (cd_notnull c) df (cd_identity c) cm) = true).
    apply bal_app; [apply bal_item, T'|now apply clause_bal].
  - eexists; reflexivity.
  - eexists. split; [now apply column_parse|]. unfold says_col. cbn [pc_name pc_type pc_notnull pc_default pc_identity pc_comment].
    split; [reflexivity|split; [|split; [reflexivity|split; [|split; [reflexivity|]]]]].
    + exists tt. split; [exists ty; auto|reflexivity].
    + unfold says_df, o in Sdf. destruct (cd_default c) as [[k e]|].
      * destruct Hdf as [Hd Hdf]. destruct d; try congruence; exact Sdf.
      * destruct d; exact Sdf.
    + unfold cm. destruct d; try reflexivity; destruct (cd_comment c); try reflexivity; destruct Hcm.
Qed.
