(** Each kind of statement is read as meant (continued). *)
From Verif Require Import PyStr QuoteModel QuoteSpec QuoteProofs Types Objects SqlAst Ddl Mutate Render SqlText TextSpec LexProofs TextProofs1 TextProofs2 TextProofs3 TextProofs4 TextProofs5.
From Coq Require Import String List Bool Arith Ascii ZArith Lia.
Import ListNotations.
Open Scope string_scope.
Open Scope list_scope.

Lemma rename_type_lex d q n txt : name_ok q -> render d (SRenameType q n) = Ok txt -> stmt_read d (SRenameType q n) txt.
Proof.
  intros Q E. cbn [render] in E. apply Ok_inj in E. subst txt.
  exists (W "ALTER" :: W "TYPE" :: name_toks q ++ [W "RENAME"; W "TO"; I n]), (PRenameType (scope_id q, local_id q) n). split; [|split; [|split]].
  - change (lex d ("ALTER TYPE " +++ quoted_id q +++ " RENAME TO " +++ local_quoted n +++ ";")
      = Some (([W "ALTER"; W "TYPE"] ++ name_toks q ++ [W "RENAME"; W "TO"] ++ [I n]) ++ [C ";"])).
    rewrite <- !app_assoc.
    apply (app_ends d _ _ [W "ALTER"; W "TYPE"] _); [reflexivity|reflexivity|].
    apply app_lead; [now apply lex_qid| |reflexivity].
    apply (app_ends d _ _ [W "RENAME"; W "TO"] _); [reflexivity|reflexivity|]. apply (semi d _ [I n]), lex_ident.
  - change (bal no_stop 0 (name_toks q ++ [W "RENAME"; W "TO"; I n]) = true). apply bal_app; [apply bal_nm|reflexivity].
  - change (statement d (W "ALTER" :: W "TYPE" :: name_toks q ++ [W "RENAME"; W "TO"; I n])) with
      (try (q, r2) <- object_name (name_toks q ++ [W "RENAME"; W "TO"; I n]);
      match kw ["RENAME"; "TO"] r2 with
      | Some r3 => try (n, r4) <- ident r3; done (PRenameType q n) r4
      | None => match kw ["ADD"; "VALUE"] r2 with
                | Some r3 => try (v, r4) <- lit r3; done (PAddValue q v) r4
                | None => try l <- each struct_action (commas 0 r2); Some (PAlterStruct q l) end
      end).
    rewrite name_parse by reflexivity. reflexivity.
  - eexists. split; reflexivity.
Qed.
Lemma add_value_lex d q v txt : name_ok q -> text_ok d v -> render d (SAddValue q v) = Ok txt -> stmt_read d (SAddValue q v) txt.
Proof.
  intros Q V E. cbn [render] in E. apply Ok_inj in E. subst txt.
  exists (W "ALTER" :: W "TYPE" :: name_toks q ++ [W "ADD"; W "VALUE"; L v]), (PAddValue (scope_id q, local_id q) v). split; [|split; [|split]].
  - change (lex d ("ALTER TYPE " +++ quoted_id q +++ " ADD VALUE " +++ quote v +++ ";")
      = Some (([W "ALTER"; W "TYPE"] ++ name_toks q ++ [W "ADD"; W "VALUE"] ++ [L v]) ++ [C ";"])).
    rewrite <- !app_assoc.
    apply (app_ends d _ _ [W "ALTER"; W "TYPE"] _); [reflexivity|reflexivity|].
    apply app_lead; [now apply lex_qid| |reflexivity].
    apply (app_ends d _ _ [W "ADD"; W "VALUE"] _); [reflexivity|reflexivity|]. apply (semi d _ [L v]). now apply lex_quote.
  - change (bal no_stop 0 (name_toks q ++ [W "ADD"; W "VALUE"; L v]) = true). apply bal_app; [apply bal_nm|reflexivity].
  - change (statement d (W "ALTER" :: W "TYPE" :: name_toks q ++ [W "ADD"; W "VALUE"; L v])) with
      (try (q, r2) <- object_name (name_toks q ++ [W "ADD"; W "VALUE"; L v]);
      match kw ["RENAME"; "TO"] r2 with
      | Some r3 => try (n, r4) <- ident r3; done (PRenameType q n) r4
      | None => match kw ["ADD"; "VALUE"] r2 with
                | Some r3 => try (v, r4) <- lit r3; done (PAddValue q v) r4
                | None => try l <- each struct_action (commas 0 r2); Some (PAlterStruct q l) end
      end).
    rewrite name_parse by reflexivity. reflexivity.
  - eexists. split; reflexivity.
Qed.

Lemma member_lex d m s : type_ok d (snd m) -> (do s <- type_str (snd m); Ok (local_quoted (fst m) +++ " " +++ s)) = Ok s ->
  exists ts p, lex d s = Some ts /\ bal item_stop 0 ts = true /\ member ts = Some p /\ (fst p = fst m /\ says_type d (snd p) (snd m)) /\ exists r, ts = I (fst m) :: r.
Proof.
  intros H E. apply bind_inv in E as (t & Et & E). apply Ok_inj in E. subst s.
  destruct (type_lex d _ _ H Et) as (tt & Lt & Tt). exists (I (fst m) :: tt), (fst m, tt). repeat split.
  - change (lex d (local_quoted (fst m) +++ " " +++ t) = Some ([I (fst m)] ++ tt)). apply app_lead; [apply lex_ident| |reflexivity].
    apply (app_ends d " " t [] tt); [reflexivity|reflexivity|exact Lt].
  - apply bal_item. exact (proj2 Tt).
  - unfold member. cbn [ident]. rewrite (typ_end _ Tt). reflexivity.
  - exists t. auto.
  - eexists; reflexivity.
Qed.
Lemma struct_lex d q ms txt : stmt_ok d (SCreateStruct q ms) -> render d (SCreateStruct q ms) = Ok txt -> stmt_read d (SCreateStruct q ms) txt.
Proof.
  intros (Q & N & H) E. cbn [render] in E. apply bind_inv in E as (l & El & E). apply Ok_inj in E. subst txt.
  apply map_res_Forall2 in El.
  assert (X : exists tss ps, Forall2 (fun s t => lex d s = Some t) l tss /\ Forall (fun t => bal item_stop 0 t = true) tss
     /\ Forall2 (fun t p => member t = Some p) tss ps /\ Forall2 (fun p m => fst p = fst m /\ says_type d (snd p) (snd m)) ps ms).
  { clear N. revert H. induction El as [|m s ms l Em El IH]; intros H; [exists [], []; repeat split; constructor|].
    inversion H as [|? ? H1 H2]; subst. destruct (IH H2) as (tss & ps & A & B & P & S).
    destruct (member_lex d m s H1 Em) as (ts & p & A1 & B1 & P1 & S1 & _). exists (ts :: tss), (p :: ps). repeat split; constructor; auto. }
  destruct X as (tss & ps & A & B & P & S).
  assert (Nt : tss <> []) by (intros ->; inversion P; subst; inversion S; subst; congruence).
  exists (W "CREATE" :: W "TYPE" :: name_toks q ++ W "AS" :: C "(" :: join_toks tss ++ [C ")"]), (PCreateStruct (scope_id q, local_id q) ps).
  split; [|split; [|split]].
  - change (lex d ("CREATE TYPE " +++ quoted_id q +++ (" AS (" +++ NL) +++ join_str comma_nl l +++ (NL +++ ");"))
      = Some (([W "CREATE"; W "TYPE"] ++ name_toks q ++ [W "AS"; C "("] ++ join_toks tss ++ [C ")"]) ++ [C ";"])).
    rewrite <- !app_assoc.
    apply (app_ends d _ _ [W "CREATE"; W "TYPE"] _); [reflexivity|reflexivity|].
    apply app_lead; [now apply lex_qid| |reflexivity].
    apply (app_ends d _ _ [W "AS"; C "("] _); [reflexivity|reflexivity|].
    apply app_lead; [apply lex_join; [now right|exact A]|reflexivity|reflexivity].
  - change (bal no_stop 0 (name_toks q ++ [W "AS"] ++ C "(" :: join_toks tss ++ C ")" :: []) = true).
    apply bal_app; [apply bal_nm|]. apply bal_app; [reflexivity|]. apply bal_paren; [now apply bal_join_items|reflexivity].
  - change (statement d (W "CREATE" :: W "TYPE" :: name_toks q ++ W "AS" :: C "(" :: join_toks tss ++ [C ")"])) with
      (try (q, r2) <- object_name (name_toks q ++ W "AS" :: C "(" :: join_toks tss ++ [C ")"]);
      match kw ["AS"; "ENUM"] r2 with
      | Some r3 => try r4 <- sym "(" r3;
                   match sym ")" r4 with
                   | Some r5 => done (PCreateEnum q []) r5
                   | None => try (vs, r5) <- lits r4; done (PCreateEnum q vs) r5 end
      | None => try r3 <- kw ["AS"] r2; try r4 <- sym "(" r3; try (a, r5) <- inside 0 r4;
                try ms <- each member (commas 0 a); done (PCreateStruct q ms) r5
      end).
    rewrite name_parse by reflexivity. cbv iota beta.
    change (kw ["AS"; "ENUM"] (W "AS" :: C "(" :: join_toks tss ++ [C ")"])) with (@None (list token)).
    change (kw ["AS"] (W "AS" :: C "(" :: join_toks tss ++ [C ")"])) with (Some (C "(" :: join_toks tss ++ [C ")"])). cbv iota beta.
    change (sym "(" (C "(" :: join_toks tss ++ [C ")"])) with (Some (join_toks tss ++ [C ")"])). cbv iota beta.
    rewrite inside_bal by now apply bal_join_items. rewrite (commas_join tss Nt B). rewrite (each_all _ _ _ P). reflexivity.
  - exists (scope_id q, local_id q), ps. split; [reflexivity|]. split; [reflexivity|exact S].
Qed.

Lemma saction_lex d a s : match a with SaDrop _ => True | SaSetType _ t | SaAdd _ t => type_ok d t end -> render_saction a = Ok s ->
  exists ts p, lex d s = Some ts /\ bal item_stop 0 ts = true /\ struct_action ts = Some p /\ says_saction d p a
    /\ (forall r, kw ["RENAME"; "TO"] (ts ++ r) = None /\ kw ["ADD"; "VALUE"] (ts ++ r) = None /\ sym "." (ts ++ r) = None).
Proof.
  intros H E. destruct a as [n|n t|n t]; cbn [render_saction] in E.
  - apply Ok_inj in E. subst s. exists [W "DROP"; W "ATTRIBUTE"; I n], (PsDrop n). repeat split.
    apply (app_ends d _ _ [W "DROP"; W "ATTRIBUTE"] _); [reflexivity|reflexivity|apply lex_ident].
  - apply bind_inv in E as (x & Ex & E). apply Ok_inj in E. subst s. destruct (type_lex d _ _ H Ex) as (tt & Lt & Tt).
    exists (W "ALTER" :: W "ATTRIBUTE" :: I n :: W "SET" :: W "DATA" :: W "TYPE" :: tt), (PsSetType n tt). split; [|split; [|split; [|split]]].
    + change (lex d ("ALTER ATTRIBUTE " +++ local_quoted n +++ " SET DATA TYPE " +++ x) = Some ([W "ALTER"; W "ATTRIBUTE"] ++ [I n] ++ [W "SET"; W "DATA"; W "TYPE"] ++ tt)).
      apply app_ends; [reflexivity|reflexivity|]. apply app_lead; [apply lex_ident| |reflexivity]. apply app_ends; [reflexivity|reflexivity|exact Lt].
    + exact (bal_item _ (proj2 Tt)).
    + change (struct_action (W "ALTER" :: W "ATTRIBUTE" :: I n :: W "SET" :: W "DATA" :: W "TYPE" :: tt))
        with (try (t, r4) <- typ tt; done (PsSetType n t) r4). now rewrite (typ_end _ Tt).
    + exists tt. split; [reflexivity|]. exists x. auto.
    + repeat split.
  - apply bind_inv in E as (x & Ex & E). apply Ok_inj in E. subst s. destruct (type_lex d _ _ H Ex) as (tt & Lt & Tt).
    exists (W "ADD" :: W "ATTRIBUTE" :: I n :: tt), (PsAdd n tt). split; [|split; [|split; [|split]]].
    + change (lex d ("ADD ATTRIBUTE " +++ local_quoted n +++ " " +++ x) = Some ([W "ADD"; W "ATTRIBUTE"] ++ [I n] ++ [] ++ tt)).
      apply app_ends; [reflexivity|reflexivity|]. apply app_lead; [apply lex_ident| |reflexivity]. apply app_ends; [reflexivity|reflexivity|exact Lt].
    + exact (bal_item _ (proj2 Tt)).
    + change (struct_action (W "ADD" :: W "ATTRIBUTE" :: I n :: tt))
        with (try (t, r4) <- typ tt; done (PsAdd n t) r4). now rewrite (typ_end _ Tt).
    + exists tt. split; [reflexivity|]. exists x. auto.
    + repeat split.
Qed.
Lemma alter_struct_lex d q acts txt : stmt_ok d (SAlterStruct q acts) -> render d (SAlterStruct q acts) = Ok txt -> stmt_read d (SAlterStruct q acts) txt.
Proof.
  intros (Q & N & H) E. cbn [render] in E. apply bind_inv in E as (l & El & E). apply Ok_inj in E. subst txt.
  apply map_res_Forall2 in El.
  assert (X : exists tss ps, Forall2 (fun s t => lex d s = Some t) l tss /\ Forall (fun t => bal item_stop 0 t = true) tss
     /\ Forall2 (fun t p => struct_action t = Some p) tss ps /\ Forall2 (says_saction d) ps acts
     /\ Forall (fun ts => forall r, kw ["RENAME"; "TO"] (ts ++ r) = None /\ kw ["ADD"; "VALUE"] (ts ++ r) = None /\ sym "." (ts ++ r) = None) tss).
  { clear N. revert H. induction El as [|m s ms l Em El IH]; intros H; [exists [], []; repeat split; constructor|].
    inversion H as [|? ? H1 H2]; subst. destruct (IH H2) as (tss & ps & A & B & P & S & K).
    destruct (saction_lex d m s H1 Em) as (ts & p & A1 & B1 & P1 & S1 & K1). exists (ts :: tss), (p :: ps). repeat (split; [constructor; auto|]). constructor; auto. }
  destruct X as (tss & ps & A & B & P & S & K).
  assert (Nt : tss <> []) by (intros ->; inversion P; subst; inversion S; subst; congruence).
  assert (KK : kw ["RENAME"; "TO"] (join_toks tss) = None /\ kw ["ADD"; "VALUE"] (join_toks tss) = None /\ sym "." (join_toks tss) = None).
  { destruct K as [|t tss K1 _]; [congruence|]. destruct tss as [|t2 tss]; [|exact (K1 _)]. specialize (K1 []). now rewrite app_nil_r in K1. }
  destruct KK as (K1 & K2 & K3).
  exists (W "ALTER" :: W "TYPE" :: name_toks q ++ join_toks tss), (PAlterStruct (scope_id q, local_id q) ps).
  split; [|split; [|split]].
  - change (lex d ("ALTER TYPE " +++ quoted_id q +++ NL +++ join_str comma_nl l +++ (";" +++ NL))
      = Some (([W "ALTER"; W "TYPE"] ++ name_toks q ++ [] ++ join_toks tss) ++ [C ";"])).
    rewrite <- !app_assoc.
    apply (app_ends d _ _ [W "ALTER"; W "TYPE"] _); [reflexivity|reflexivity|].
    apply app_lead; [now apply lex_qid| |reflexivity].
    apply (app_ends d NL _ [] _); [reflexivity|reflexivity|].
    apply app_lead; [apply lex_join; [now right|exact A]|reflexivity|reflexivity].
  - change (bal no_stop 0 (name_toks q ++ join_toks tss) = true).
    apply bal_app; [apply bal_nm|]. now apply bal_join_items.
  - change (statement d (W "ALTER" :: W "TYPE" :: name_toks q ++ join_toks tss)) with
      (try (q, r2) <- object_name (name_toks q ++ join_toks tss);
      match kw ["RENAME"; "TO"] r2 with
      | Some r3 => try (n, r4) <- ident r3; done (PRenameType q n) r4
      | None => match kw ["ADD"; "VALUE"] r2 with
                | Some r3 => try (v, r4) <- lit r3; done (PAddValue q v) r4
                | None => try l <- each struct_action (commas 0 r2); Some (PAlterStruct q l) end
      end).
    rewrite name_parse by exact K3. rewrite K1, K2. rewrite (commas_join tss Nt B). rewrite (each_all _ _ _ P). reflexivity.
  - exists (scope_id q, local_id q), ps. split; [reflexivity|]. split; [reflexivity|exact S].
Qed.

(** ** Tables *)
Lemma table_items_parse d tss ps pn pk : Forall2 (fun t p => column_definition d t = Some p) tss ps -> pk <> [] ->
  table_items d (tss ++ [W "CONSTRAINT" :: I pn :: W "PRIMARY" :: W "KEY" :: C "(" :: ident_toks pk ++ [C ")"]]) = Some (ps, (pn, pk)).
Proof.
  intros H N. induction H as [|t p tss ps Ht H IH].
  - cbn [app]. change (table_items d [W "CONSTRAINT" :: I pn :: W "PRIMARY" :: W "KEY" :: C "(" :: ident_toks pk ++ [C ")"]])
      with (try (cs, r4) <- columns (C "(" :: ident_toks pk ++ [C ")"]); done (@nil pcol, (pn, cs)) r4).
    rewrite columns_parse by exact N. reflexivity.
  - assert (X : exists y l, tss ++ [W "CONSTRAINT" :: I pn :: W "PRIMARY" :: W "KEY" :: C "(" :: ident_toks pk ++ [C ")"]] = y :: l)
      by (destruct tss; eexists; eexists; reflexivity).
    destruct X as (y & l & X). cbn [app]. rewrite X in *. change (table_items d (t :: y :: l)) with
      (try c <- column_definition d t; try (cs, k) <- table_items d (y :: l); Some (c :: cs, k)). now rewrite Ht, IH.
Qed.
Definition table_comment (d : dialect) (cm : option string) : string :=
  match cm with
  | None => ""
  | Some c => NL +++ match d with
                    | DDelta => "COMMENT " +++ delta_quoted_string c
                    | DSnow => "COMMENT = " +++ snow_quoted_string c
                    | _ => "COMMENT = " +++ quote c end
  end.
Lemma comment_lex d cm : match cm with None => True | Some c => match d with DMySQL => text_ok d c | DDelta | DSnow => True | _ => False end end ->
  exists ts, lex d (table_comment d cm +++ ";") = Some (ts ++ [C ";"]) /\ bal no_stop 0 ts = true /\ table_option d ts = Some cm
    /\ lead (table_comment d cm +++ ";") = true.
Proof.
  destruct cm as [c|]; intros H; [|exists []; repeat split].
  destruct d; try contradiction; cbn [table_comment].
  - exists [W "COMMENT"; C "="; L c]. repeat split.
    change (lex DMySQL ((NL +++ "COMMENT = ") +++ quote c +++ ";") = Some ([W "COMMENT"; C "="] ++ [L c] ++ [C ";"])).
    apply app_ends; [reflexivity|reflexivity|]. apply semi. now apply lex_quote.
  - exists [W "COMMENT"; L c]. repeat split.
    change (lex DDelta ((NL +++ "COMMENT ") +++ delta_quoted_string c +++ ";") = Some ([W "COMMENT"] ++ [L c] ++ [C ";"])).
    apply app_ends; [reflexivity|reflexivity|]. apply semi. apply lex_delta.
  - exists [W "COMMENT"; C "="; L c]. repeat split.
    change (lex DSnow ((NL +++ "COMMENT = ") +++ snow_quoted_string c +++ ";") = Some ([W "COMMENT"; C "="] ++ [L c] ++ [C ";"])).
    apply app_ends; [reflexivity|reflexivity|]. apply semi. apply lex_snow.
Qed.
Lemma table_lex d q cols pn pk cm txt : stmt_ok d (SCreateTable q cols pn pk cm) -> render d (SCreateTable q cols pn pk cm) = Ok txt ->
  stmt_read d (SCreateTable q cols pn pk cm) txt.
Proof.
  intros (Q & H & Nk & Hcm) E. cbn [render] in E. apply bind_inv in E as (l & El & E). cbv zeta in E. apply Ok_inj in E. subst txt.
  fold (table_comment d cm). apply map_res_Forall2 in El.
  assert (X : exists tss ps, Forall2 (fun s t => lex d s = Some t) l tss /\ Forall (fun t => bal item_stop 0 t = true) tss
     /\ Forall2 (fun t p => column_definition d t = Some p) tss ps /\ Forall2 (says_col d) ps cols).
  { revert H. induction El as [|m s ms l Em El IH]; intros H; [exists [], []; repeat split; constructor|].
    inversion H as [|? ? H1 H2]; subst. destruct (IH H2) as (tss & ps & A & B & P & S).
    destruct (coldef_lex d m s H1 Em) as (ts & A1 & B1 & _ & p & P1 & S1). exists (ts :: tss), (p :: ps). repeat split; constructor; auto. }
  destruct X as (tss & ps & A & B & P & S).
  destruct (comment_lex d cm Hcm) as (ct & Lc & Bc & Pc & Lead).
  set (pkt := W "CONSTRAINT" :: I pn :: W "PRIMARY" :: W "KEY" :: C "(" :: ident_toks pk ++ [C ")"]).
  assert (Lp : lex d ("CONSTRAINT " +++ local_quoted pn +++ " PRIMARY KEY (" +++ cols_str pk +++ ")") = Some pkt).
  { change pkt with ([W "CONSTRAINT"] ++ [I pn] ++ [W "PRIMARY"; W "KEY"; C "("] ++ ident_toks pk ++ [C ")"]).
    apply app_ends; [reflexivity|reflexivity|]. apply app_lead; [apply lex_ident| |reflexivity].
    apply app_ends; [reflexivity|reflexivity|]. apply app_lead; [apply lex_cols|reflexivity|reflexivity]. }
  assert (Bp : bal item_stop 0 pkt = true).
  { change (bal item_stop 0 (C "(" :: ident_toks pk ++ C ")" :: []) = true). apply (bal_inner _ no_stop); [apply bal_idents|reflexivity]. }
  assert (A' : Forall2 (fun s t => lex d s = Some t) (l ++ ["CONSTRAINT " +++ local_quoted pn +++ " PRIMARY KEY (" +++ cols_str pk +++ ")"]) (tss ++ [pkt]))
    by (apply Forall2_app; [exact A|constructor; [exact Lp|constructor]]).
  assert (B' : Forall (fun t => bal item_stop 0 t = true) (tss ++ [pkt])) by (apply Forall_app; split; [exact B|constructor; [exact Bp|constructor]]).
  assert (Nt : tss ++ [pkt] <> []) by (destruct tss; discriminate).
  exists (W "CREATE" :: W "TABLE" :: name_toks q ++ C "(" :: join_toks (tss ++ [pkt]) ++ C ")" :: ct), (PCreateTable (scope_id q, local_id q) ps pn pk cm).
  split; [|split; [|split]].
  - replace ("CREATE TABLE " +++ quoted_id q +++ " (" +++ NL +++ join_str comma_nl (l ++ ["CONSTRAINT " +++ local_quoted pn +++ " PRIMARY KEY (" +++ cols_str pk +++ ")"]) +++ NL +++ ")" +++ table_comment d cm +++ ";")
      with ("CREATE TABLE " +++ quoted_id q +++ (" (" +++ NL) +++ join_str comma_nl (l ++ ["CONSTRAINT " +++ local_quoted pn +++ " PRIMARY KEY (" +++ cols_str pk +++ ")"]) +++ ((NL +++ ")") +++ table_comment d cm +++ ";"))
      by reflexivity.
    change (W "CREATE" :: W "TABLE" :: name_toks q ++ C "(" :: join_toks (tss ++ [pkt]) ++ C ")" :: ct) with
      ([W "CREATE"; W "TABLE"] ++ name_toks q ++ [C "("] ++ join_toks (tss ++ [pkt]) ++ [C ")"] ++ ct).
    rewrite <- !app_assoc.
    apply (app_ends d "CREATE TABLE " _ [W "CREATE"; W "TABLE"] _); [reflexivity|reflexivity|].
    apply app_lead; [now apply lex_qid| |reflexivity].
    apply (app_ends d _ _ [C "("] _); [reflexivity|reflexivity|].
    apply app_lead; [apply lex_join; [now right|exact A']| |reflexivity].
    apply (app_ends d (NL +++ ")") _ [C ")"] _); [reflexivity|reflexivity|exact Lc].
  - change (bal no_stop 0 (name_toks q ++ C "(" :: join_toks (tss ++ [pkt]) ++ C ")" :: ct) = true).
    apply bal_app; [apply bal_nm|]. apply bal_paren; [now apply bal_join_items|exact Bc].
  - change (statement d (W "CREATE" :: W "TABLE" :: name_toks q ++ C "(" :: join_toks (tss ++ [pkt]) ++ C ")" :: ct)) with
      (try (q, r2) <- object_name (name_toks q ++ C "(" :: join_toks (tss ++ [pkt]) ++ C ")" :: ct); try r3 <- sym "(" r2; try (a, r4) <- inside 0 r3;
              try (cs, (pn, pk)) <- table_items d (commas 0 a); try cm <- table_option d r4;
              Some (PCreateTable q cs pn pk cm)).
    rewrite name_parse by reflexivity. cbv iota beta.
    change (sym "(" (C "(" :: join_toks (tss ++ [pkt]) ++ C ")" :: ct)) with (Some (join_toks (tss ++ [pkt]) ++ C ")" :: ct)). cbv iota beta.
    rewrite inside_bal by now apply bal_join_items. rewrite (commas_join _ Nt B'). unfold pkt.
    rewrite (table_items_parse d tss ps pn pk P Nk). rewrite Pc. reflexivity.
  - exists (scope_id q, local_id q), ps. repeat split. exact S.
Qed.
Lemma alter_table_lex d q acts txt : stmt_ok d (SAlterTable q acts) -> render d (SAlterTable q acts) = Ok txt -> stmt_read d (SAlterTable q acts) txt.
Proof.
  intros (Q & H) E. cbn [render] in E. destruct (alter_lex d q acts txt Q H E) as (body & ps & l & Lx & B & Dot & Cm & P & Eps & S).
  exists (W "ALTER" :: W "TABLE" :: name_toks q ++ body), (PAlterTable (scope_id q, local_id q) ps). split; [|split; [|split]].
  - rewrite Lx. cbn [app]. now rewrite <- app_assoc.
  - change (bal no_stop 0 (name_toks q ++ body) = true). apply bal_app; [apply bal_nm|exact B].
  - change (statement d (W "ALTER" :: W "TABLE" :: name_toks q ++ body)) with
     (try (q, r2) <- object_name (name_toks q ++ body);
      match (match d with DMySQL => kw ["COMMENT"] r2 | _ => None end) with
      | Some r3 => try r4 <- sym "=" r3; try (s, r5) <- lit r4; done (PTableComment q s) r5
      | None => try l <- actions d r2; Some (PAlterTable q l) end).
    rewrite name_parse by exact Dot. cbv iota beta. rewrite P. destruct d; try reflexivity. now rewrite (Cm eq_refl).
  - exists (scope_id q, local_id q), l. subst ps. repeat split. exact S.
Qed.

(** ** Comments *)
Lemma opt_lex c : exists t, lex DPg (opt_comment c) = Some [t] /\ comment_text [t] = Some c /\ bal no_stop 0 [t] = true.
Proof.
  destruct c as [s|]; cbn [opt_comment].
  - exists (L s). repeat split. apply lex_pg.
  - exists (W "NULL"). repeat split.
Qed.
Lemma comment_table_lex q c txt : name_ok q -> render DPg (SCommentTable q c) = Ok txt -> stmt_read DPg (SCommentTable q c) txt.
Proof.
  intros Q E. cbn [render] in E. apply Ok_inj in E. subst txt. destruct (opt_lex c) as (t & Lt & Pt & Bt).
  exists (W "COMMENT" :: W "ON" :: W "TABLE" :: name_toks q ++ [W "IS"; t]), (PCommentTable (scope_id q, local_id q) c). split; [|split; [|split]].
  - change (lex DPg ("COMMENT ON TABLE " +++ quoted_id q +++ " IS " +++ opt_comment c +++ ";")
      = Some (([W "COMMENT"; W "ON"; W "TABLE"] ++ name_toks q ++ [W "IS"] ++ [t]) ++ [C ";"])). rewrite <- !app_assoc.
    apply app_ends; [reflexivity|reflexivity|]. apply app_lead; [now apply lex_qid| |reflexivity].
    apply app_ends; [reflexivity|reflexivity|]. now apply semi.
  - change (bal no_stop 0 (name_toks q ++ [W "IS"] ++ [t]) = true). repeat apply bal_app; [apply bal_nm|reflexivity|exact Bt].
  - change (statement DPg (W "COMMENT" :: W "ON" :: W "TABLE" :: name_toks q ++ [W "IS"; t])) with
      (try (q, r2) <- object_name (name_toks q ++ [W "IS"; t]); try r3 <- kw ["IS"] r2; try c <- comment_text r3; Some (PCommentTable q c)).
    rewrite name_parse by reflexivity. cbv iota beta. change (kw ["IS"] [W "IS"; t]) with (Some [t]). cbv iota beta. now rewrite Pt.
  - eexists. split; reflexivity.
Qed.
Lemma comment_type_lex q c txt : name_ok q -> render DPg (SCommentType q c) = Ok txt -> stmt_read DPg (SCommentType q c) txt.
Proof.
  intros Q E. cbn [render] in E. apply Ok_inj in E. subst txt. destruct (opt_lex c) as (t & Lt & Pt & Bt).
  exists (W "COMMENT" :: W "ON" :: W "TYPE" :: name_toks q ++ [W "IS"; t]), (PCommentType (scope_id q, local_id q) c). split; [|split; [|split]].
  - change (lex DPg ("COMMENT ON TYPE " +++ quoted_id q +++ " IS " +++ opt_comment c +++ ";")
      = Some (([W "COMMENT"; W "ON"; W "TYPE"] ++ name_toks q ++ [W "IS"] ++ [t]) ++ [C ";"])). rewrite <- !app_assoc.
    apply app_ends; [reflexivity|reflexivity|]. apply app_lead; [now apply lex_qid| |reflexivity].
    apply app_ends; [reflexivity|reflexivity|]. now apply semi.
  - change (bal no_stop 0 (name_toks q ++ [W "IS"] ++ [t]) = true). repeat apply bal_app; [apply bal_nm|reflexivity|exact Bt].
  - change (statement DPg (W "COMMENT" :: W "ON" :: W "TYPE" :: name_toks q ++ [W "IS"; t])) with
      (try (q, r2) <- object_name (name_toks q ++ [W "IS"; t]); try r3 <- kw ["IS"] r2; try c <- comment_text r3; Some (PCommentType q c)).
    rewrite name_parse by reflexivity. cbv iota beta. change (kw ["IS"] [W "IS"; t]) with (Some [t]). cbv iota beta. now rewrite Pt.
  - eexists. split; reflexivity.
Qed.
Lemma name_dot_parse q c r : sym "." r = None -> name_dot (name_toks q ++ C "." :: I c :: r) = Some ((scope_id q, local_id q), c, r).
Proof.
  intros H. unfold name_toks, name_dot. destruct (scope_id q); cbn [app ident]; [reflexivity|].
  change (sym "." (C "." :: I c :: r)) with (Some (I c :: r)). cbn [ident]. now rewrite H.
Qed.
Lemma comment_column_lex q col c txt : name_ok q -> render DPg (SCommentColumn q col c) = Ok txt -> stmt_read DPg (SCommentColumn q col c) txt.
Proof.
  intros Q E. cbn [render] in E. apply Ok_inj in E. subst txt. destruct (opt_lex c) as (t & Lt & Pt & Bt).
  exists (W "COMMENT" :: W "ON" :: W "COLUMN" :: name_toks q ++ [C "."; I col; W "IS"; t]), (PCommentColumn (scope_id q, local_id q) col c). split; [|split; [|split]].
  - change (lex DPg ("COMMENT ON COLUMN " +++ quoted_id q +++ "." +++ local_quoted col +++ " IS " +++ opt_comment c +++ ";")
      = Some (([W "COMMENT"; W "ON"; W "COLUMN"] ++ name_toks q ++ [C "."] ++ [I col] ++ [W "IS"] ++ [t]) ++ [C ";"])). rewrite <- !app_assoc.
    apply app_ends; [reflexivity|reflexivity|]. apply app_lead; [now apply lex_qid| |reflexivity].
    apply app_ends; [reflexivity|reflexivity|]. apply app_lead; [apply lex_ident| |reflexivity].
    apply app_ends; [reflexivity|reflexivity|]. now apply semi.
  - change (bal no_stop 0 (name_toks q ++ [C "."; I col; W "IS"] ++ [t]) = true). repeat apply bal_app; [apply bal_nm|reflexivity|exact Bt].
  - change (statement DPg (W "COMMENT" :: W "ON" :: W "COLUMN" :: name_toks q ++ [C "."; I col; W "IS"; t])) with
      (try (q, c, r2) <- name_dot (name_toks q ++ [C "."; I col; W "IS"; t]); try r3 <- kw ["IS"] r2; try t <- comment_text r3; Some (PCommentColumn q c t)).
    rewrite name_dot_parse by reflexivity. cbv iota beta. change (kw ["IS"] [W "IS"; t]) with (Some [t]). cbv iota beta. now rewrite Pt.
  - eexists. split; reflexivity.
Qed.
Lemma my_comment_lex q c txt : name_ok q -> text_ok DMySQL c -> render DMySQL (SMyTableComment q c) = Ok txt -> stmt_read DMySQL (SMyTableComment q c) txt.
Proof.
  intros Q H E. cbn [render] in E. apply Ok_inj in E. subst txt.
  exists (W "ALTER" :: W "TABLE" :: name_toks q ++ [W "COMMENT"; C "="; L c]), (PTableComment (scope_id q, local_id q) c). split; [|split; [|split]].
  - change (lex DMySQL ("ALTER TABLE " +++ quoted_id q +++ " COMMENT = " +++ quote c +++ ";")
      = Some (([W "ALTER"; W "TABLE"] ++ name_toks q ++ [W "COMMENT"; C "="] ++ [L c]) ++ [C ";"])). rewrite <- !app_assoc.
    apply app_ends; [reflexivity|reflexivity|]. apply app_lead; [now apply lex_qid| |reflexivity].
    apply app_ends; [reflexivity|reflexivity|]. apply semi. now apply lex_quote.
  - change (bal no_stop 0 (name_toks q ++ [W "COMMENT"; C "="; L c]) = true). apply bal_app; [apply bal_nm|reflexivity].
  - change (statement DMySQL (W "ALTER" :: W "TABLE" :: name_toks q ++ [W "COMMENT"; C "="; L c])) with
     (try (q, r2) <- object_name (name_toks q ++ [W "COMMENT"; C "="; L c]);
      match kw ["COMMENT"] r2 with
      | Some r3 => try r4 <- sym "=" r3; try (s, r5) <- lit r4; done (PTableComment q s) r5
      | None => try l <- actions DMySQL r2; Some (PAlterTable q l) end).
    rewrite name_parse by reflexivity. reflexivity.
  - eexists. split; reflexivity.
Qed.
