(** Each kind of statement is read as meant. *)
From Verif Require Import PyStr QuoteModel QuoteSpec QuoteProofs Types Objects SqlAst Ddl Mutate Render SqlText TextSpec LexProofs TextProofs1 TextProofs2 TextProofs3 TextProofs4.
From Coq Require Import String List Bool Arith Ascii ZArith Lia.
Import ListNotations.
Open Scope string_scope.
Open Scope list_scope.

Definition stmt_read (d : dialect) (s : stmt) (txt : string) : Prop :=
  exists ts p, lex d txt = Some (ts ++ [C ";"]) /\ bal no_stop 0 ts = true /\ statement d ts = Some p /\ says d p s.

Lemma bal_nm q : bal no_stop 0 (name_toks q) = true.
Proof. apply bal_name; reflexivity. Qed.
Lemma bal_cons_w w r : bal no_stop 0 r = true -> bal no_stop 0 (W w :: r) = true.
Proof. auto. Qed.
Lemma name_end q : object_name (name_toks q) = Some ((scope_id q, local_id q), []).
Proof. rewrite <- (app_nil_r (name_toks q)). now apply name_parse. Qed.
Lemma semi d s ts : lex d s = Some ts -> lex d (s +++ ";") = Some (ts ++ [C ";"]).
Proof. intros H. now apply app_lead. Qed.

(** ** Schemas *)
Lemma lex_national s : lex DMSSQL (String "N" (quote s)) = Some [L s].
Proof.
  change [L s] with ([L s] ++ []). apply (lex_step DMSSQL _ [L s] ""); [|reflexivity]. unfold quote. cbn [append next].
  change (space_char "N") with false. change (Ascii.eqb "N" DQ) with false. change (Ascii.eqb "N" QT) with false. change (word_char "N") with true.
  cbn iota. rewrite Ascii.eqb_refl. cbn [scan_prefixed]. change (Ascii.eqb (upper "N") "N") with true. cbn iota.
  pose proof (scan_quoted_replace QT s "" (not_begins_nil _)) as X. change (String QT (str1 QT)) with "''" in X. change (String QT "") with (str1 QT) in X.
  change (str1 QT) with "'" in X. rewrite X. reflexivity.
Qed.

Lemma ms_schema_text n : has_char QT n = false ->
  quote ("CREATE SCHEMA " +++ local_quoted n) = "'CREATE SCHEMA " +++ local_quoted n +++ "'".
Proof.
  intros H. unfold quote. rewrite (replace1_id QT "''" ("CREATE SCHEMA " +++ local_quoted n)).
  - unfold local_quoted, in_dq. rewrite !append_assoc. reflexivity.
  - rewrite has_char_app. unfold local_quoted, in_dq. rewrite !has_char_app. rewrite (quote_id_no_qt _ H). reflexivity.
Qed.
Lemma schema_lex d b n txt : stmt_ok d (SCreateSchema b n) -> render d (SCreateSchema b n) = Ok txt -> stmt_read d (SCreateSchema b n) txt.
Proof.
  intros H E. destruct b.
  - assert (Std : d <> DMSSQL -> stmt_read d (SCreateSchema true n) txt).
    { intros N. assert (E' : Ok ("CREATE SCHEMA IF NOT EXISTS " +++ local_quoted n +++ ";") = Ok txt) by (destruct d; try congruence; exact E).
      apply Ok_inj in E'. subst txt. exists [W "CREATE"; W "SCHEMA"; W "IF"; W "NOT"; W "EXISTS"; I n], (PCreateSchema true n).
      repeat split. apply (app_ends d "CREATE SCHEMA IF NOT EXISTS " _ [W "CREATE"; W "SCHEMA"; W "IF"; W "NOT"; W "EXISTS"] [I n; C ";"]); [reflexivity|reflexivity|].
      apply (semi d _ [I n]), lex_ident. }
    destruct d; try (apply Std; discriminate). clear Std. destruct (H eq_refl) as [N Q].
    assert (E' : Ok ("IF NOT EXISTS ( SELECT * FROM sys.schemas WHERE name = N" +++ quote n +++ " ) EXEC('CREATE SCHEMA " +++ local_quoted n +++ "');") = Ok txt)
      by (destruct n; [congruence|exact E]).
    apply Ok_inj in E'. clear E. subst txt.
    replace ("IF NOT EXISTS ( SELECT * FROM sys.schemas WHERE name = N" +++ quote n +++ " ) EXEC('CREATE SCHEMA " +++ local_quoted n +++ "');")
      with ("IF NOT EXISTS ( SELECT * FROM sys.schemas WHERE name = " +++ String "N" (quote n) +++ " ) EXEC(" +++ quote ("CREATE SCHEMA " +++ local_quoted n) +++ ");").
    2:{ rewrite (ms_schema_text n Q). change (String "N" (quote n)) with ("N" +++ quote n). unfold quote. rewrite ?append_assoc. reflexivity. }
    set (batch := "CREATE SCHEMA " +++ local_quoted n).
    set (pre := [W "IF"; W "NOT"; W "EXISTS"; C "("; W "SELECT"; C "*"; W "FROM"; W "SYS"; C "."; W "SCHEMAS"; W "WHERE"; W "NAME"; C "="]).
    set (mid := [C ")"; W "EXEC"; C "("]).
    exists (pre ++ [L n] ++ mid ++ [L batch; C ")"]), (PCreateSchema true n). split; [|split; [|split]].
    + rewrite <- !app_assoc.
      apply (app_ends DMSSQL _ _ pre _); [reflexivity|reflexivity|]. apply (app_lead DMSSQL _ _ [L n] _); [apply lex_national| |reflexivity].
      apply (app_ends DMSSQL _ _ mid _); [reflexivity|reflexivity|].
      apply (app_lead DMSSQL _ _ [L batch] _); [now apply lex_quote|reflexivity|reflexivity].
    + reflexivity.
    + assert (LB : lex DMSSQL batch = Some [W "CREATE"; W "SCHEMA"; I n]).
      { apply (app_ends DMSSQL "CREATE SCHEMA " _ [W "CREATE"; W "SCHEMA"] _); [reflexivity|reflexivity|apply lex_ident]. }
      change (statement DMSSQL (pre ++ [L n] ++ mid ++ [L batch; C ")"])) with
        (try b <- lex DMSSQL batch; try b <- kw ["CREATE"; "SCHEMA"] b; try (m, b) <- ident b;
         if String.eqb n m then match b with [] => done (PCreateSchema true n) [] | _ => None end else None).
      rewrite LB. change ((if String.eqb n n then Some (PCreateSchema true n) else None) = Some (PCreateSchema true n)).
      now rewrite String.eqb_refl.
    + reflexivity.
  - cbn [render] in E. apply Ok_inj in E. subst txt. exists [W "CREATE"; W "SCHEMA"; I n], (PCreateSchema false n). repeat split.
    apply (app_ends d "CREATE SCHEMA " _ [W "CREATE"; W "SCHEMA"] [I n; C ";"]); [reflexivity|reflexivity|]. apply (semi d _ [I n]), lex_ident.
Qed.
Lemma drop_schema_lex d b n txt : render d (SDropSchema b n) = Ok txt -> stmt_read d (SDropSchema b n) txt.
Proof.
  intros E. destruct b; cbn [render] in E; apply Ok_inj in E; subst txt.
  - exists [W "DROP"; W "SCHEMA"; W "IF"; W "EXISTS"; I n; W "CASCADE"], (PDropSchema true true n). repeat split.
    apply (app_ends d "DROP SCHEMA IF EXISTS " _ [W "DROP"; W "SCHEMA"; W "IF"; W "EXISTS"] [I n; W "CASCADE"; C ";"]); [reflexivity|reflexivity|].
    apply (app_lead d _ " CASCADE;" [I n] _); [apply lex_ident|reflexivity|reflexivity].
  - exists [W "DROP"; W "SCHEMA"; I n], (PDropSchema false false n). repeat split.
    apply (app_ends d "DROP SCHEMA " _ [W "DROP"; W "SCHEMA"] [I n; C ";"]); [reflexivity|reflexivity|]. apply (semi d _ [I n]), lex_ident.
Qed.

(** ** Types *)
Lemma enum_lex d q vs txt : name_ok q -> Forall (text_ok d) vs -> render d (SCreateEnum q vs) = Ok txt -> stmt_read d (SCreateEnum q vs) txt.
Proof.
  intros Q H E. cbn [render] in E. apply Ok_inj in E. subst txt. unfold enum_create_text.
  set (ls := join_toks (map (fun v => [L v]) vs)).
  exists (W "CREATE" :: W "TYPE" :: name_toks q ++ W "AS" :: W "ENUM" :: C "(" :: ls ++ [C ")"]), (PCreateEnum (scope_id q, local_id q) vs).
  split; [|split; [|split]].
  - change (lex d ("CREATE TYPE " +++ quoted_id q +++ " AS ENUM (" +++ join_str ", " (map quote vs) +++ ");")
      = Some (([W "CREATE"; W "TYPE"] ++ name_toks q ++ [W "AS"; W "ENUM"; C "("] ++ ls ++ [C ")"]) ++ [C ";"])).
    rewrite <- !app_assoc.
    apply (app_ends d _ _ [W "CREATE"; W "TYPE"] _); [reflexivity|reflexivity|].
    apply app_lead; [now apply lex_qid| |reflexivity].
    apply (app_ends d _ _ [W "AS"; W "ENUM"; C "("] _); [reflexivity|reflexivity|].
    apply app_lead; [now apply lex_lits|reflexivity|reflexivity].
  - change (bal no_stop 0 (name_toks q ++ [W "AS"; W "ENUM"] ++ C "(" :: ls ++ C ")" :: []) = true).
    apply bal_app; [apply bal_nm|]. apply bal_app; [reflexivity|]. apply bal_paren; [apply bal_lits|reflexivity].
  - change (statement d (W "CREATE" :: W "TYPE" :: name_toks q ++ W "AS" :: W "ENUM" :: C "(" :: ls ++ [C ")"])) with
      (try (q, r2) <- object_name (name_toks q ++ W "AS" :: W "ENUM" :: C "(" :: ls ++ [C ")"]);
      match kw ["AS"; "ENUM"] r2 with
      | Some r3 => try r4 <- sym "(" r3;
                   match sym ")" r4 with
                   | Some r5 => done (PCreateEnum q []) r5
                   | None => try (vs, r5) <- lits r4; done (PCreateEnum q vs) r5 end
      | None => try r3 <- kw ["AS"] r2; try r4 <- sym "(" r3; try (a, r5) <- inside 0 r4;
                try ms <- each member (commas 0 a); done (PCreateStruct q ms) r5
      end).
    rewrite name_parse by reflexivity. cbv iota beta.
    change (kw ["AS"; "ENUM"] (W "AS" :: W "ENUM" :: C "(" :: ls ++ [C ")"])) with (Some (C "(" :: ls ++ [C ")"])). cbv iota beta.
    change (sym "(" (C "(" :: ls ++ [C ")"])) with (Some (ls ++ [C ")"])). cbv iota beta.
    destruct vs as [|v vs]; [reflexivity|].
    assert (N : sym ")" (ls ++ [C ")"]) = None) by (unfold ls; destruct vs; reflexivity). rewrite N.
    unfold ls. rewrite lits_parse by discriminate. reflexivity.
  - eexists. split; [reflexivity|reflexivity].
Qed.
Lemma one_name d s kws w1 w2 q P txt :
  lex d kws = Some [W w1; W w2] -> ends kws = true -> name_ok q -> txt = kws +++ quoted_id q +++ ";" ->
  statement d (W w1 :: W w2 :: name_toks q) = (try (q, r2) <- object_name (name_toks q); done (P q) r2) ->
  says d (P (scope_id q, local_id q)) s -> stmt_read d s txt.
Proof.
  intros Lk En Q -> St Sy. exists (W w1 :: W w2 :: name_toks q), (P (scope_id q, local_id q)). split; [|split; [|split]].
  - apply (app_ends d kws _ [W w1; W w2] _); [exact En|exact Lk|]. apply semi. now apply lex_qid.
  - exact (bal_nm q).
  - rewrite St, name_end. reflexivity.
  - exact Sy.
Qed.
Lemma drop_type_lex d q txt : name_ok q -> render d (SDropType q) = Ok txt -> stmt_read d (SDropType q) txt.
Proof.
  intros Q E. cbn [render] in E. apply Ok_inj in E. symmetry in E.
  eapply (one_name d _ "DROP TYPE " _ _ q PDropType); [reflexivity|reflexivity|exact Q|exact E|reflexivity|]. eexists; split; reflexivity.
Qed.
Lemma drop_table_lex d q txt : name_ok q -> render d (SDropTable q) = Ok txt -> stmt_read d (SDropTable q) txt.
Proof.
  intros Q E. cbn [render] in E. apply Ok_inj in E. symmetry in E.
  eapply (one_name d _ "DROP TABLE " _ _ q PDropTable); [reflexivity|reflexivity|exact Q|exact E|reflexivity|]. eexists; split; reflexivity.
Qed.
