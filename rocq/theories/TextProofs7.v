(** Statements on rows, and whole scripts, are read as meant. *)
From Verif Require Import PyStr QuoteModel QuoteSpec QuoteProofs Types Objects SqlAst Ddl Mutate Render SqlText TextSpec LexProofs TextProofs1 TextProofs2 TextProofs3 TextProofs4 TextProofs5 TextProofs6.
From Coq Require Import String List Bool Arith Ascii ZArith Lia.
Import ListNotations.
Open Scope string_scope.
Open Scope list_scope.

(** ** Rows *)
Definition no_on (ts : list token) : Prop := Forall (fun t => is_word ["ON"] t = false) ts.
Lemma until_on_app a r : no_on a -> (r = [] \/ exists r', r = W "ON" :: r') -> until_on (a ++ r) = (a, r).
Proof.
  intros A R. induction A as [|t a Ht A IH]; cbn [app].
  - destruct R as [-> | (r' & ->)]; reflexivity.
  - cbn [until_on]. now rewrite Ht, IH.
Qed.
Lemma digits_word n : String.eqb (n_to_str n) "TRUE" = false /\ String.eqb (n_to_str n) "FALSE" = false /\ String.eqb (n_to_str n) "ON" = false.
Proof.
  destruct (n_to_str_nonempty n) as (c & r & E & D). rewrite E.
  repeat split; apply String.eqb_neq; intros [= -> ->]; discriminate D.
Qed.
Lemma value_n n r : value (W (n_to_str n) :: r) = Some (SInt (Z.of_N n), r).
Proof.
  cbn [value]. destruct (digits_word n) as (-> & -> & _). rewrite n_to_str_inv. unfold all_digits. now rewrite n_to_str_digits.
Qed.
Lemma value_z z : value_only (z_toks z) = Some (SInt z).
Proof.
  destruct z as [|p|p]; unfold value_only; cbn [z_toks].
  - reflexivity.
  - now rewrite value_n.
  - cbn [value]. change (Ascii.eqb "-" "-") with true. cbv iota. rewrite n_to_str_inv. unfold all_digits. rewrite n_to_str_digits. reflexivity.
Qed.
Lemma z_no_on z : no_on (z_toks z).
Proof.
  destruct z as [|p|p]; cbn [z_toks]; repeat constructor; cbn [is_word existsb]; destruct (digits_word (Npos p)) as (_ & _ & ->); reflexivity.
Qed.
Lemma z_item z : bal item_stop 0 (z_toks z) = true.
Proof. destruct z; reflexivity. Qed.
Lemma scalar_lex d v s : scalar_ok d v -> constant v = Ok s ->
  exists ts p, lex d s = Some ts /\ bal item_stop 0 ts = true /\ no_on ts /\ value_only ts = Some p /\ says_scalar p v.
Proof.
  destruct v as [x|b|z|l|]; cbn [scalar_ok constant]; intros H E; try contradiction; apply Ok_inj in E; subst s.
  - exists [L x], (SStr x). repeat split; [now apply lex_quote|repeat constructor].
  - exists [W (if b then "TRUE" else "FALSE")], (SBool b). destruct b; repeat split; repeat constructor.
  - exists (z_toks z), (SInt z). split; [apply lex_z|]. split; [apply z_item|]. split; [apply z_no_on|]. split; [apply value_z|reflexivity].
Qed.
Definition const_list := fix go (l : list pyval) : res (list string) :=
  match l with [] => Ok [] | x :: r => do a <- constant x; do b <- go r; Ok (a :: b) end.
Lemma join_no_on l : Forall no_on l -> no_on (join_toks l).
Proof.
  induction 1 as [|x l Hx H IH]; [constructor|]. destruct l as [|y l]; [exact Hx|].
  change (join_toks (x :: y :: l)) with (x ++ C "," :: join_toks (y :: l)). apply Forall_app. split; [exact Hx|constructor; [reflexivity|exact IH]].
Qed.
Definition row_item (v : pyval) (ts : list token) : Prop :=
  bal item_stop 0 ts = true /\ no_on ts /\ exists p, row ts = Some p /\ says_row p v.
Lemma row_parse v tss ps : tss <> [] -> Forall (fun x => bal item_stop 0 x = true) tss -> Forall no_on tss ->
  Forall2 (fun t p => value_only t = Some p) tss ps -> says_row ps v -> row_item v (C "(" :: join_toks tss ++ [C ")"]).
Proof.
  intros N B O P S. split; [|split].
  - apply (bal_inner item_stop no_stop); [now apply bal_join_items|reflexivity].
  - constructor; [reflexivity|]. apply Forall_app. split; [now apply join_no_on|repeat constructor].
  - exists ps. split; [|exact S].
    change (row (C "(" :: join_toks tss ++ [C ")"])) with
      (try (a, r2) <- inside 0 (join_toks tss ++ [C ")"]); try l <- each value_only (commas 0 a); done l r2).
    rewrite inside_bal by now apply bal_join_items. rewrite (commas_join _ N B), (each_all _ _ _ P). reflexivity.
Qed.
Lemma lex_row d x ts : lex d x = Some ts -> lex d ("(" +++ x +++ ")") = Some (C "(" :: ts ++ [C ")"]).
Proof.
  intros H. change (C "(" :: ts ++ [C ")"]) with ([C "("] ++ ts ++ [C ")"]). apply app_ends; [reflexivity|reflexivity|]. now apply app_lead.
Qed.
Lemma row_lex d v s : row_ok d v -> row_str v = Ok s -> exists ts, lex d s = Some ts /\ row_item v ts.
Proof.
  intros H E.
  assert (One : (forall l, v <> PTuple l) -> exists ts, lex d s = Some ts /\ row_item v ts).
  { intros NT. assert (H' : scalar_ok d v) by (destruct v; try exact H; now destruct (NT l)).
    assert (E' : (do s <- constant v; Ok ("(" +++ s +++ ")")) = Ok s) by (destruct v; try exact E; now destruct (NT l)).
    apply bind_inv in E' as (x & Ex & E'). apply Ok_inj in E'. subst s.
    destruct (scalar_lex d v x H' Ex) as (ts & p & A & B & O & P & S).
    exists (C "(" :: join_toks [ts] ++ [C ")"]). split; [now apply lex_row|].
    apply (row_parse v [ts] [p]); try (repeat constructor; assumption); [discriminate|].
    assert (exists x, [p] = [x] /\ says_scalar x v) by (exists p; auto). destruct v; try assumption. now destruct (NT l). }
  destruct v as [x|b|z|l|]; try (apply One; discriminate). clear One. destruct H as [N H].
  change (row_str (PTuple l)) with (do vs <- const_list l; Ok ("(" +++ join_str ", " vs +++ ")")) in E.
  apply bind_inv in E as (vs & Ev & E). apply Ok_inj in E. subst s.
  assert (X : exists tss ps, Forall2 (fun s t => lex d s = Some t) vs tss /\ Forall (fun x => bal item_stop 0 x = true) tss /\ Forall no_on tss
     /\ Forall2 (fun t p => value_only t = Some p) tss ps /\ Forall2 says_scalar ps l).
  { clear N. revert vs Ev. induction H as [|v l Hv H IH]; intros vs Ev.
    - apply Ok_inj in Ev. subst vs. exists [], []. repeat split; constructor.
    - change (const_list (v :: l)) with (do a <- constant v; do b <- const_list l; Ok (a :: b)) in Ev.
      apply bind_inv in Ev as (a & Ea & Ev). apply bind_inv in Ev as (b & Eb & Ev). apply Ok_inj in Ev. subst vs.
      destruct (IH b Eb) as (tss & ps & A & B & O & P & S). destruct (scalar_lex d v a Hv Ea) as (ts & p & A1 & B1 & O1 & P1 & S1).
      exists (ts :: tss), (p :: ps). repeat split; constructor; auto. }
  destruct X as (tss & ps & A & B & O & P & S).
  exists (C "(" :: join_toks tss ++ [C ")"]). split.
  - apply lex_row. apply lex_join; [now left|exact A].
  - apply (row_parse _ tss ps); auto. intros ->. inversion P; subst. inversion S; subst. congruence.
Qed.

Definition conflict_text (oc : onconflict) : string :=
  match oc with
  | NoClause => ";"
  | PgDoNothing => " ON CONFLICT (" +++ local_quoted "value" +++ ") DO NOTHING;"
  | MyKeep => NL +++ "ON DUPLICATE KEY UPDATE " +++ local_quoted "value" +++ " = " +++ local_quoted "value" +++ ";"
  end.
Lemma conflict_lex d oc : match oc with NoClause => True | PgDoNothing => d <> DMySQL | MyKeep => d = DMySQL end ->
  exists ts p, lex d (conflict_text oc) = Some (ts ++ [C ";"]) /\ lead (conflict_text oc) = true /\ bal no_stop 0 ts = true
    /\ conflict d ts = Some p /\ says_conflict p oc /\ (ts = [] \/ exists r, ts = W "ON" :: r).
Proof.
  destruct oc; cbn [conflict_text]; intros H.
  - exists [], PNone. repeat split. now left.
  - exists [W "ON"; W "CONFLICT"; C "("; I "value"; C ")"; W "DO"; W "NOTHING"], (PDoNothing "value"). repeat split.
    + destruct d; congruence || reflexivity.
    + right. eexists. reflexivity.
  - subst d. exists [W "ON"; W "DUPLICATE"; W "KEY"; W "UPDATE"; I "value"; C "="; I "value"], (PKeepRow "value" "value"). repeat split.
    right. eexists. reflexivity.
Qed.
Lemma insert_lex d q cols rows oc txt : stmt_ok d (SInsert q cols rows oc) -> render d (SInsert q cols rows oc) = Ok txt -> stmt_read d (SInsert q cols rows oc) txt.
Proof.
  intros (Q & Nc & Nr & H & Hoc) E. cbn [render] in E. apply bind_inv in E as (l & El & E). apply Ok_inj in E. subst txt.
  fold (conflict_text oc). apply map_res_Forall2 in El.
  assert (X : exists tss ps, Forall2 (fun s t => lex d s = Some t) l tss /\ Forall (fun t => bal item_stop 0 t = true) tss /\ Forall no_on tss
     /\ Forall2 (fun t p => row t = Some p) tss ps /\ Forall2 says_row ps rows).
  { clear Nr. revert H. induction El as [|v s rows l Ev El IH]; intros H; [exists [], []; repeat split; constructor|].
    inversion H as [|? ? H1 H2]; subst. destruct (IH H2) as (tss & ps & A & B & O & P & S).
    destruct (row_lex d v s H1 Ev) as (ts & A1 & B1 & O1 & p & P1 & S1). exists (ts :: tss), (p :: ps). repeat split; constructor; auto. }
  destruct X as (tss & ps & A & B & O & P & S).
  assert (Nt : tss <> []) by (intros ->; inversion P; subst; inversion S; subst; congruence).
  destruct (conflict_lex d oc Hoc) as (ct & cp & Lc & Ldc & Bc & Pc & Sc & Hc).
  exists (W "INSERT" :: W "INTO" :: name_toks q ++ C "(" :: ident_toks cols ++ C ")" :: W "VALUES" :: join_toks tss ++ ct),
    (PInsert (scope_id q, local_id q) cols ps cp).
  split; [|split; [|split]].
  - change (lex d ("INSERT INTO " +++ quoted_id q +++ " (" +++ cols_str cols +++ ") VALUES " +++ join_str ", " l +++ conflict_text oc)
      = Some (([W "INSERT"; W "INTO"] ++ name_toks q ++ C "(" :: ident_toks cols ++ [C ")"; W "VALUES"] ++ join_toks tss ++ ct) ++ [C ";"])).
    rewrite <- !app_assoc. cbn [app]. rewrite <- !app_assoc. cbn [app]. rewrite <- app_assoc.
    change (W "INSERT" :: W "INTO" :: name_toks q ++ C "(" :: ident_toks cols ++ C ")" :: W "VALUES" :: join_toks tss ++ ct ++ [C ";"])
      with ([W "INSERT"; W "INTO"] ++ name_toks q ++ [C "("] ++ ident_toks cols ++ [C ")"; W "VALUES"] ++ join_toks tss ++ ct ++ [C ";"]).
    apply app_ends; [reflexivity|reflexivity|]. apply app_lead; [now apply lex_qid| |reflexivity].
    apply (app_ends d " (" _ [C "("] _); [reflexivity|reflexivity|]. apply app_lead; [apply lex_cols| |reflexivity].
    apply (app_ends d ") VALUES " _ [C ")"; W "VALUES"] _); [reflexivity|reflexivity|].
    apply app_lead; [apply lex_join; [now left|exact A]|exact Lc|exact Ldc].
  - change (bal no_stop 0 (name_toks q ++ C "(" :: ident_toks cols ++ C ")" :: W "VALUES" :: join_toks tss ++ ct) = true).
    apply bal_app; [apply bal_nm|]. apply bal_paren; [apply bal_idents|]. apply bal_cons_w. apply bal_app; [now apply bal_join_items|exact Bc].
  - change (statement d (W "INSERT" :: W "INTO" :: name_toks q ++ C "(" :: ident_toks cols ++ C ")" :: W "VALUES" :: join_toks tss ++ ct)) with
      (try (q, r2) <- object_name (name_toks q ++ C "(" :: ident_toks cols ++ C ")" :: W "VALUES" :: join_toks tss ++ ct); try (cs, r3) <- columns r2;
      match kw ["SELECT"; "DISTINCT"] r3 with
      | Some r4 => match cs with
                   | [c] => try (sc, r5) <- ident r4; try r6 <- kw ["FROM"] r5; try (src, r7) <- object_name r6;
                            try oc <- conflict d r7; Some (PInsertDistinct q c src sc oc)
                   | _ => None end
      | None => try r4 <- kw ["VALUES"] r3; let (a, b) := until_on r4 in
                try rows <- each row (commas 0 a); try oc <- conflict d b; Some (PInsert q cs rows oc)
      end).
    rewrite name_parse by reflexivity. cbv iota beta. rewrite columns_parse by exact Nc. cbv iota beta.
    change (kw ["SELECT"; "DISTINCT"] (W "VALUES" :: join_toks tss ++ ct)) with (@None (list token)).
    change (kw ["VALUES"] (W "VALUES" :: join_toks tss ++ ct)) with (Some (join_toks tss ++ ct)). cbv iota beta.
    rewrite (until_on_app _ ct (join_no_on _ O) Hc). rewrite (commas_join _ Nt B), (each_all _ _ _ P), Pc. reflexivity.
  - exists (scope_id q, local_id q), ps, cp. repeat split; auto.
Qed.
Lemma distinct_lex q src col txt : name_ok q -> name_ok src -> render DMySQL (SInsertDistinct q src col) = Ok txt -> stmt_read DMySQL (SInsertDistinct q src col) txt.
Proof.
  intros Q Qs E. cbn [render] in E. apply Ok_inj in E. subst txt.
  set (ct := [W "ON"; W "DUPLICATE"; W "KEY"; W "UPDATE"; I "value"; C "="; I "value"]).
  exists (W "INSERT" :: W "INTO" :: name_toks q ++ C "(" :: I "value" :: C ")" :: W "SELECT" :: W "DISTINCT" :: I col :: W "FROM" :: name_toks src ++ ct),
    (PInsertDistinct (scope_id q, local_id q) "value" (scope_id src, local_id src) col (PKeepRow "value" "value")).
  split; [|split; [|split]].
  - change (lex DMySQL ("INSERT INTO " +++ quoted_id q +++ (" (" +++ local_quoted "value" +++ ") SELECT DISTINCT ") +++ local_quoted col
          +++ " FROM " +++ quoted_id src +++ (NL
          +++ "ON DUPLICATE KEY UPDATE " +++ local_quoted "value" +++ " = " +++ local_quoted "value" +++ ";"))
      = Some (([W "INSERT"; W "INTO"] ++ name_toks q ++ [C "("; I "value"; C ")"; W "SELECT"; W "DISTINCT"] ++ [I col] ++ [W "FROM"] ++ name_toks src ++ ct) ++ [C ";"])).
    rewrite <- !app_assoc.
    apply app_ends; [reflexivity|reflexivity|]. apply app_lead; [now apply lex_qid| |reflexivity].
    apply app_ends; [reflexivity|reflexivity|]. apply app_lead; [apply lex_ident| |reflexivity].
    apply app_ends; [reflexivity|reflexivity|]. apply app_lead; [now apply lex_qid|reflexivity|reflexivity].
  - change (bal no_stop 0 (name_toks q ++ [C "("; I "value"; C ")"; W "SELECT"; W "DISTINCT"; I col; W "FROM"] ++ name_toks src ++ ct) = true).
    repeat apply bal_app; try apply bal_nm; reflexivity.
  - change (statement DMySQL (W "INSERT" :: W "INTO" :: name_toks q ++ C "(" :: I "value" :: C ")" :: W "SELECT" :: W "DISTINCT" :: I col :: W "FROM" :: name_toks src ++ ct)) with
      (try (q, r2) <- object_name (name_toks q ++ C "(" :: I "value" :: C ")" :: W "SELECT" :: W "DISTINCT" :: I col :: W "FROM" :: name_toks src ++ ct); try (cs, r3) <- columns r2;
      match kw ["SELECT"; "DISTINCT"] r3 with
      | Some r4 => match cs with
                   | [c] => try (sc, r5) <- ident r4; try r6 <- kw ["FROM"] r5; try (src, r7) <- object_name r6;
                            try oc <- conflict DMySQL r7; Some (PInsertDistinct q c src sc oc)
                   | _ => None end
      | None => try r4 <- kw ["VALUES"] r3; let (a, b) := until_on r4 in
                try rows <- each row (commas 0 a); try oc <- conflict DMySQL b; Some (PInsert q cs rows oc)
      end).
    rewrite name_parse by reflexivity. cbv iota beta.
    change (columns (C "(" :: I "value" :: C ")" :: W "SELECT" :: W "DISTINCT" :: I col :: W "FROM" :: name_toks src ++ ct))
      with (Some (["value"], W "SELECT" :: W "DISTINCT" :: I col :: W "FROM" :: name_toks src ++ ct)). cbv iota beta.
    change (kw ["SELECT"; "DISTINCT"] (W "SELECT" :: W "DISTINCT" :: I col :: W "FROM" :: name_toks src ++ ct)) with (Some (I col :: W "FROM" :: name_toks src ++ ct)).
    cbv iota beta. change (ident (I col :: W "FROM" :: name_toks src ++ ct)) with (Some (col, W "FROM" :: name_toks src ++ ct)). cbv iota beta.
    change (kw ["FROM"] (W "FROM" :: name_toks src ++ ct)) with (Some (name_toks src ++ ct)). cbv iota beta.
    rewrite name_parse by reflexivity. reflexivity.
  - exists (scope_id q, local_id q), (scope_id src, local_id src). repeat split.
Qed.
Lemma update_lex d q nc oc ref txt : name_ok q -> name_ok ref -> render d (SUpdateLookup q nc oc ref) = Ok txt -> stmt_read d (SUpdateLookup q nc oc ref) txt.
Proof.
  intros Q R E. destruct d eqn:Ed.
  3:{ cbn [render] in E. apply Ok_inj in E. subst txt.
    set (t1 := [W "DATA_TABLE"; W "JOIN"]). set (t2 := [W "ENUM_TABLE"; W "ON"; W "DATA_TABLE"; C "."]).
    set (t3 := [C "="; W "ENUM_TABLE"; C "."; I "value"; W "SET"; W "DATA_TABLE"; C "."]). set (t4 := [C "="; W "ENUM_TABLE"; C "."; I "id"]).
    exists (W "UPDATE" :: name_toks q ++ t1 ++ name_toks ref ++ t2 ++ I oc :: t3 ++ I nc :: t4),
      (PUpdateLookup (scope_id q, local_id q) nc oc (scope_id ref, local_id ref) "value" "id" false).
    split; [|split; [|split]].
    - change (lex DMySQL ("UPDATE " +++ quoted_id q +++ (" data_table" +++ NL +++ "JOIN ") +++ quoted_id ref +++ " enum_table ON data_table." +++ local_quoted oc
                +++ (" = enum_table." +++ local_quoted "value" +++ NL +++ "SET data_table.") +++ local_quoted nc +++ (" = enum_table." +++ local_quoted "id" +++ ";"))
        = Some (([W "UPDATE"] ++ name_toks q ++ t1 ++ name_toks ref ++ t2 ++ [I oc] ++ t3 ++ [I nc] ++ t4) ++ [C ";"])). rewrite <- !app_assoc.
      apply app_ends; [reflexivity|reflexivity|]. apply app_lead; [now apply lex_qid| |reflexivity].
      apply app_ends; [reflexivity|reflexivity|]. apply app_lead; [now apply lex_qid| |reflexivity].
      apply app_ends; [reflexivity|reflexivity|]. apply app_lead; [apply lex_ident| |reflexivity].
      apply app_ends; [reflexivity|reflexivity|]. apply app_lead; [apply lex_ident|reflexivity|reflexivity].
    - change (bal no_stop 0 (name_toks q ++ t1 ++ name_toks ref ++ t2 ++ [I oc] ++ t3 ++ [I nc] ++ t4) = true).
      repeat apply bal_app; try apply bal_nm; reflexivity.
    - change (statement DMySQL (W "UPDATE" :: name_toks q ++ t1 ++ name_toks ref ++ t2 ++ I oc :: t3 ++ I nc :: t4)) with
        (update_lookup DMySQL (name_toks q ++ t1 ++ name_toks ref ++ t2 ++ I oc :: t3 ++ I nc :: t4)).
      unfold update_lookup. rewrite name_parse by reflexivity. cbv iota beta.
      change (kw ["DATA_TABLE"] (t1 ++ name_toks ref ++ t2 ++ I oc :: t3 ++ I nc :: t4)) with (Some (W "JOIN" :: name_toks ref ++ t2 ++ I oc :: t3 ++ I nc :: t4)). cbv iota beta.
      change (kw ["JOIN"] (W "JOIN" :: name_toks ref ++ t2 ++ I oc :: t3 ++ I nc :: t4)) with (Some (name_toks ref ++ t2 ++ I oc :: t3 ++ I nc :: t4)). cbv iota beta.
      rewrite name_parse by reflexivity. reflexivity.
    - eexists; eexists; eexists. repeat split. }
  all: rewrite <- Ed in *;
    assert (E' : Ok ("UPDATE " +++ quoted_id q +++ (" data_table" +++ NL +++ "SET ") +++ local_quoted nc +++ (" = enum_table." +++ local_quoted "id" +++ NL
                 +++ "FROM ") +++ quoted_id ref +++ (" enum_table" +++ NL
                 +++ "WHERE data_table.") +++ local_quoted oc +++ ("::VARCHAR = enum_table." +++ local_quoted "value" +++ ";")) = Ok txt)
      by (rewrite <- E; rewrite Ed; reflexivity);
    assert (Nd : d <> DMySQL) by congruence; clear E Ed; apply Ok_inj in E'; subst txt;
    set (t1 := [W "DATA_TABLE"; W "SET"]); set (t2 := [C "="; W "ENUM_TABLE"; C "."; I "id"; W "FROM"]);
    set (t3 := [W "ENUM_TABLE"; W "WHERE"; W "DATA_TABLE"; C "."]); set (t4 := [C ":"; C ":"; W "VARCHAR"; C "="; W "ENUM_TABLE"; C "."; I "value"]);
    exists (W "UPDATE" :: name_toks q ++ t1 ++ I nc :: t2 ++ name_toks ref ++ t3 ++ I oc :: t4),
      (PUpdateLookup (scope_id q, local_id q) nc oc (scope_id ref, local_id ref) "value" "id" true);
    (split; [|split; [|split]]);
    [ change (W "UPDATE" :: name_toks q ++ t1 ++ I nc :: t2 ++ name_toks ref ++ t3 ++ I oc :: t4) with
        ([W "UPDATE"] ++ name_toks q ++ t1 ++ [I nc] ++ t2 ++ name_toks ref ++ t3 ++ [I oc] ++ t4); rewrite <- !app_assoc;
      (apply app_ends; [reflexivity|reflexivity|]); (apply app_lead; [now apply lex_qid| |reflexivity]);
      (apply app_ends; [reflexivity|reflexivity|]); (apply app_lead; [apply lex_ident| |reflexivity]);
      (apply app_ends; [reflexivity|reflexivity|]); (apply app_lead; [now apply lex_qid| |reflexivity]);
      (apply app_ends; [reflexivity|reflexivity|]); (apply app_lead; [apply lex_ident|reflexivity|reflexivity])
    | change (bal no_stop 0 (name_toks q ++ t1 ++ [I nc] ++ t2 ++ name_toks ref ++ t3 ++ [I oc] ++ t4) = true);
      repeat apply bal_app; try apply bal_nm; reflexivity
    | change (statement d (W "UPDATE" :: name_toks q ++ t1 ++ I nc :: t2 ++ name_toks ref ++ t3 ++ I oc :: t4)) with
        (update_lookup d (name_toks q ++ t1 ++ I nc :: t2 ++ name_toks ref ++ t3 ++ I oc :: t4));
      unfold update_lookup; rewrite name_parse by reflexivity; cbv iota beta;
      change (kw ["DATA_TABLE"] (t1 ++ I nc :: t2 ++ name_toks ref ++ t3 ++ I oc :: t4)) with (Some (W "SET" :: I nc :: t2 ++ name_toks ref ++ t3 ++ I oc :: t4)); cbv iota beta;
      destruct d; try congruence;
      change (kw ["SET"] (W "SET" :: I nc :: t2 ++ name_toks ref ++ t3 ++ I oc :: t4)) with (Some (I nc :: t2 ++ name_toks ref ++ t3 ++ I oc :: t4)); cbv iota beta;
      change (ident (I nc :: t2 ++ name_toks ref ++ t3 ++ I oc :: t4)) with (Some (nc, t2 ++ name_toks ref ++ t3 ++ I oc :: t4)); cbv iota beta;
      change (sym "=" (t2 ++ name_toks ref ++ t3 ++ I oc :: t4)) with (Some (W "ENUM_TABLE" :: C "." :: I "id" :: W "FROM" :: name_toks ref ++ t3 ++ I oc :: t4)); cbv iota beta;
      change (kw ["ENUM_TABLE"] (W "ENUM_TABLE" :: C "." :: I "id" :: W "FROM" :: name_toks ref ++ t3 ++ I oc :: t4)) with (Some (C "." :: I "id" :: W "FROM" :: name_toks ref ++ t3 ++ I oc :: t4)); cbv iota beta;
      change (sym "." (C "." :: I "id" :: W "FROM" :: name_toks ref ++ t3 ++ I oc :: t4)) with (Some (I "id" :: W "FROM" :: name_toks ref ++ t3 ++ I oc :: t4)); cbv iota beta;
      change (ident (I "id" :: W "FROM" :: name_toks ref ++ t3 ++ I oc :: t4)) with (Some ("id", W "FROM" :: name_toks ref ++ t3 ++ I oc :: t4)); cbv iota beta;
      change (kw ["FROM"] (W "FROM" :: name_toks ref ++ t3 ++ I oc :: t4)) with (Some (name_toks ref ++ t3 ++ I oc :: t4)); cbv iota beta;
      rewrite name_parse by reflexivity; reflexivity
    | eexists; eexists; eexists; repeat split ].
Qed.

(** ** Any statement, and scripts *)
Lemma stmt_lex d s txt : stmt_ok d s -> render d s = Ok txt -> stmt_read d s txt.
Proof.
  destruct s; intros H E.
  - now apply schema_lex.
  - now apply drop_schema_lex.
  - destruct H. now apply enum_lex.
  - now apply struct_lex.
  - now apply drop_type_lex.
  - now apply rename_type_lex.
  - destruct H. now apply add_value_lex.
  - now apply alter_struct_lex.
  - now apply table_lex.
  - now apply drop_table_lex.
  - now apply alter_table_lex.
  - destruct H as [H ->]. now apply comment_table_lex.
  - destruct H as [H ->]. now apply comment_column_lex.
  - destruct H as [H ->]. now apply comment_type_lex.
  - destruct H as (H & -> & H2). now apply my_comment_lex.
  - now apply insert_lex.
  - destruct H as (H & H2 & ->). now apply distinct_lex.
  - destruct H. now apply update_lex.
Qed.
Lemma script_lex d ss l : Forall (stmt_ok d) ss -> map_res (render d) ss = Ok l -> l <> [] ->
  exists tss ps, lex d (join_str NL l) = Some (concat (map (fun ts => ts ++ [C ";"]) tss))
    /\ Forall (fun ts => bal no_stop 0 ts = true) tss /\ Forall2 (fun ts p => statement d ts = Some p) tss ps /\ Forall2 (says d) ps ss.
Proof.
  intros H E N. apply map_res_Forall2 in E.
  assert (X : exists tss ps, Forall2 (fun s ts => lex d s = Some (ts ++ [C ";"])) l tss
    /\ Forall (fun ts => bal no_stop 0 ts = true) tss /\ Forall2 (fun ts p => statement d ts = Some p) tss ps /\ Forall2 (says d) ps ss).
  { clear N. revert H. induction E as [|s x ss l Ex E IH]; intros H; [exists [], []; repeat split; constructor|].
    inversion H as [|? ? H1 H2]; subst. destruct (IH H2) as (tss & ps & A & B & P & S).
    destruct (stmt_lex d s x H1 Ex) as (ts & p & A1 & B1 & P1 & S1). exists (ts :: tss), (p :: ps). repeat split; constructor; auto. }
  destruct X as (tss & ps & A & B & P & S). exists tss, ps. repeat split; auto. clear - A N.
  induction A as [|x t l tss Hx A IH]; [congruence|]. destruct A as [|y u l tss Hy A].
  - cbn [map concat join_str]. now rewrite app_nil_r.
  - rewrite join_str_cons. cbn [map concat]. apply app_lead; [exact Hx| |reflexivity].
    apply (app_ends d NL _ [] _); [reflexivity|reflexivity|]. apply IH. discriminate.
Qed.
Lemma script_read d ss l : Forall (stmt_ok d) ss -> map_res (render d) ss = Ok l -> l <> [] ->
  exists ps, read d (join_str NL l) = Some ps /\ Forall2 (says d) ps ss.
Proof.
  intros H E N. destruct (script_lex d ss l H E N) as (tss & ps & A & B & P & S). exists ps. split; [|exact S].
  unfold read. rewrite A.
  assert (X : statements (concat (map (fun ts => ts ++ [C ";"]) tss)) = Some tss).
  { clear - B. induction B as [|t tss Ht B IH]; [reflexivity|]. cbn [map concat]. rewrite <- app_assoc. cbn [app]. now apply statements_bal. }
  rewrite X. now apply each_all.
Qed.
