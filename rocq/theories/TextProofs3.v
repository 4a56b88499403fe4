(** Constraints and actions of ALTER TABLE are read as meant. *)
From Verif Require Import PyStr QuoteModel QuoteSpec QuoteProofs Types Objects SqlAst Ddl Mutate Render SqlText TextSpec LexProofs TextProofs1 TextProofs2.
From Coq Require Import String List Bool Arith Ascii ZArith Lia.
Import ListNotations.
Open Scope string_scope.
Open Scope list_scope.

Lemma app_lead d a b ta tb : lex d a = Some ta -> lex d b = Some tb -> lead b = true -> lex d (a +++ b) = Some (ta ++ tb).
Proof. intros. apply lex_app; auto. Qed.
Lemma app_ends d a b ta tb : ends a = true -> lex d a = Some ta -> lex d b = Some tb -> lex d (a +++ b) = Some (ta ++ tb).
Proof. intros. apply lex_app; auto. Qed.
(** the next piece is a literal text / a quoted name *)
Ltac txt := eapply app_ends; [reflexivity| vm_compute; reflexivity| ].
Ltac idn := eapply app_lead; [apply lex_ident| | reflexivity].

Lemma constr_lex d k s : constr_ok d k -> constr_spec k = Ok s ->
  exists n ts p, lex d s = Some (I n :: ts) /\ bal item_stop 0 (I n :: ts) = true /\ key_spec ts = Some p /\ says_key d n p k
                 /\ kw ["DEFAULT"] ts = None.
Proof.
  destruct k as [n cs|n cs q rs|n dc ds|n e]; cbn [constr_ok constr_spec]; intros H E; try discriminate E; apply Ok_inj in E; subst s.
  - exists n, (W "UNIQUE" :: C "(" :: ident_toks cs ++ [C ")"]), (KUnique cs). repeat split.
    + apply (app_lead d _ _ [I n] _); [apply lex_ident| |reflexivity].
      apply (app_ends d " UNIQUE (" _ [W "UNIQUE"; C "("] _); [reflexivity|reflexivity|].
      apply app_lead; [apply lex_cols|reflexivity|reflexivity].
    + apply (bal_app item_stop 0 [I n; W "UNIQUE"] (C "(" :: ident_toks cs ++ [C ")"])); [reflexivity|].
      apply (bal_inner _ no_stop); [apply bal_idents|reflexivity].
    + unfold key_spec. cbn [kw String.eqb Ascii.eqb Bool.eqb]. now rewrite columns_parse.
  - destruct H as (H1 & H2 & H3).
    exists n, (W "FOREIGN" :: W "KEY" :: C "(" :: ident_toks cs ++ C ")" :: W "REFERENCES" :: name_toks q ++ C "(" :: ident_toks rs ++ [C ")"]),
      (KForeign cs (scope_id q, local_id q) rs). repeat split.
    + apply (app_lead d _ _ [I n] _); [apply lex_ident| |reflexivity].
      apply (app_ends d " FOREIGN KEY (" _ [W "FOREIGN"; W "KEY"; C "("] _); [reflexivity|reflexivity|].
      apply app_lead; [apply lex_cols| |reflexivity].
      apply (app_ends d ") REFERENCES " _ [C ")"; W "REFERENCES"] _); [reflexivity|reflexivity|].
      apply app_lead; [now apply lex_qid| |reflexivity].
      apply (app_ends d " (" _ [C "("] _); [reflexivity|reflexivity|].
      apply app_lead; [apply lex_cols|reflexivity|reflexivity].
    + apply (bal_app item_stop 0 [I n; W "FOREIGN"; W "KEY"] _); [reflexivity|].
      apply (bal_inner _ no_stop); [apply bal_idents|].
      apply (bal_app item_stop 0 [W "REFERENCES"] _); [reflexivity|].
      apply bal_app; [now apply bal_name|]. apply (bal_inner _ no_stop); [apply bal_idents|reflexivity].
    + unfold key_spec. cbn [kw String.eqb Ascii.eqb Bool.eqb]. rewrite columns_parse by exact H1.
      cbn [kw String.eqb Ascii.eqb Bool.eqb]. rewrite name_parse by reflexivity. now rewrite columns_parse.
    + exists (scope_id q, local_id q). split; reflexivity.
  - destruct H as (ts & A & B). exists n, (W "CHECK" :: C "(" :: ts ++ [C ")"]), (KCheck ts). repeat split.
    + apply (app_lead d _ _ [I n] _); [apply lex_ident| |reflexivity].
      apply (app_ends d " CHECK (" _ [W "CHECK"; C "("] _); [reflexivity|reflexivity|].
      apply app_lead; [exact A|reflexivity|reflexivity].
    + apply (bal_app item_stop 0 [I n; W "CHECK"] (C "(" :: ts ++ [C ")"])); [reflexivity|].
      apply (bal_inner _ item_stop); [exact B|reflexivity].
    + unfold key_spec. cbn [kw sym String.eqb Ascii.eqb Bool.eqb]. rewrite inside_bal by exact (bal_none _ _ B). reflexivity.
    + exists ts. split; [exact A|reflexivity].
Qed.

(** Oracle's MODIFY *)
Definition ora_toks (t df : option (list token)) (nl id : option bool) : list token :=
  (match t with Some x => x | None => [] end) ++ (match df with Some e => W "DEFAULT" :: e | None => [] end)
  ++ (match nl with Some true => [W "NULL"] | Some false => [W "NOT"; W "NULL"] | None => [] end)
  ++ (match id with Some true => [W "GENERATED"; W "BY"; W "DEFAULT"; W "AS"; W "IDENTITY"] | Some false => [W "DROP"; W "IDENTITY"] | None => [] end).
Definition opt_all {A} (P : A -> Prop) (o : option A) : Prop := match o with Some x => P x | None => True end.
Lemma modify_parse t df nl id : opt_all ty_toks t -> opt_all expr_toks df -> modify (ora_toks t df nl id) = Some (PM t df nl id).
Proof.
  intros T D. unfold modify, ora_toks.
  set (tail := (match nl with Some true => [W "NULL"] | Some false => [W "NOT"; W "NULL"] | None => [] end)
    ++ (match id with Some true => [W "GENERATED"; W "BY"; W "DEFAULT"; W "AS"; W "IDENTITY"] | Some false => [W "DROP"; W "IDENTITY"] | None => [] end)).
  assert (S : stops tail) by (destruct nl as [[]|], id as [[]|]; (exact Logic.I || reflexivity)).
  assert (S2 : stops (match df with Some e => W "DEFAULT" :: e | None => [] end ++ tail)) by (destruct df; [reflexivity|exact S]).
  assert (U : until_clause 0 (match t with Some x => x | None => [] end ++ match df with Some e => W "DEFAULT" :: e | None => [] end ++ tail)
              = (match t with Some x => x | None => [] end, match df with Some e => W "DEFAULT" :: e | None => [] end ++ tail)).
  { destruct t as [x|]; [apply until_bal; [apply T|exact S2]| now apply until_stop]. }
  rewrite U.
  assert (X : match match t with Some x => x | None => [] end with [] => None | _ => Some (match t with Some x => x | None => [] end) end = t).
  { destruct t as [x|]; [destruct x; [destruct T; congruence|reflexivity]|reflexivity]. }
  assert (Y : match kw ["DEFAULT"] (match df with Some e => W "DEFAULT" :: e | None => [] end ++ tail) with
              | Some r' => match expr r' with Some (e, r2) => Some (Some e, r2) | None => None end
              | None => Some (None, match df with Some e => W "DEFAULT" :: e | None => [] end ++ tail) end = Some (df, tail)).
  { destruct df as [e|].
    - cbn [app kw String.eqb Ascii.eqb Bool.eqb]. now rewrite (expr_app e tail D S).
    - destruct nl as [[]|], id as [[]|]; reflexivity. }
  cbv zeta. rewrite Y, X. destruct nl as [[]|], id as [[]|]; reflexivity.
Qed.
Lemma join_sp_lex d l ts : Forall2 (fun s t => lex d s = Some t) l ts -> lex d (join_str " " l) = Some (concat ts).
Proof.
  induction 1 as [|x t l ts Hx H IH]; [reflexivity|]. destruct H as [|y u l ts Hy H].
  - simpl. now rewrite app_nil_r.
  - rewrite join_str_cons. change (concat (t :: u :: ts)) with (t ++ concat (u :: ts)).
    apply app_lead; [exact Hx| |reflexivity]. apply (app_ends d " " _ []); [reflexivity|reflexivity|exact IH].
Qed.
Lemma map_res_Forall2 {A B} (f : A -> res B) l r : map_res f l = Ok r -> Forall2 (fun x y => f x = Ok y) l r.
Proof.
  revert r. induction l as [|x l IH]; simpl; intros r E; [injection E as <-; constructor|].
  destruct (f x) as [y|] eqn:Fx; [|discriminate]. simpl in E. destruct (map_res f l) as [ys|]; [|discriminate]. injection E as <-.
  constructor; auto.
Qed.
Definition some_list {A} (o : option A) : list A := match o with Some x => [x] | None => [] end.
Lemma ora_lex d t df nl id l : Forall (ora_ok d) (ora_changes t df nl id) -> map_res render_ora (ora_changes t df nl id) = Ok l ->
  exists tt td, lex d (join_str " " l) = Some (ora_toks tt td nl id) /\ opt_all ty_toks tt /\ opt_all expr_toks td
    /\ says_modify d (PM tt td nl id) (ora_changes t df nl id).
Proof.
  intros Hok E. apply map_res_Forall2 in E. unfold ora_changes in Hok, E.
  apply Forall_app in Hok as [H1 Hok]. apply Forall_app in Hok as [H2 _].
  apply Forall2_app_inv_l in E as (l1 & l' & E1 & E & ->). apply Forall2_app_inv_l in E as (l2 & l'' & E2 & E & ->).
  apply Forall2_app_inv_l in E as (l3 & l4 & E3 & E4 & ->).
  assert (X1 : exists tt, Forall2 (fun s u => lex d s = Some u) l1 (some_list tt) /\ opt_all ty_toks tt /\ opt_rel (says_type d) tt t).
  { destruct t as [t|].
    - inversion H1; subst. inversion E1 as [|? y ? ? Ey E1' ]; subst. inversion E1'; subst.
      destruct (type_lex d t y H3 Ey) as (tt & A & B). exists (Some tt). repeat split; [constructor; auto|apply B|apply B|].
      exists y. auto.
    - inversion E1; subst. exists None. repeat split; constructor. }
  assert (X2 : exists td, Forall2 (fun s u => lex d s = Some u) l2 (map (fun e => W "DEFAULT" :: e) (some_list td)) /\ opt_all expr_toks td
    /\ opt_rel (fun ts x => match x with Some e => says_expr d ts e | None => ts = [W "NULL"] end) td df).
  { destruct df as [df|].
    - inversion H2; subst. inversion E2 as [|? y ? ? Ey E2' ]; subst. inversion E2'; subst.
      destruct df as [e|]; simpl in Ey; apply Ok_inj in Ey; subst y.
      + destruct (expr_ok_toks d e H3) as (td & A & B). exists (Some td). repeat split; [|exact B|exact A].
        constructor; [|constructor]. apply (app_ends d "DEFAULT " _ [W "DEFAULT"] _); [reflexivity|reflexivity|exact A].
      + exists (Some [W "NULL"]). repeat split; constructor; [reflexivity|constructor].
    - inversion E2; subst. exists None. repeat split; constructor. }
  destruct X1 as (tt & A1 & B1 & C1), X2 as (td & A2 & B2 & C2). exists tt, td.
  assert (A3 : Forall2 (fun s u => lex d s = Some u) l3 (match nl with Some true => [[W "NULL"]] | Some false => [[W "NOT"; W "NULL"]] | None => [] end)).
  { destruct nl as [[]|]; inversion E3 as [|? y ? ? Ey E3']; subst; try (inversion E3'; subst; simpl in Ey; apply Ok_inj in Ey; subst y);
      repeat constructor. }
  assert (A4 : Forall2 (fun s u => lex d s = Some u) l4 (match id with Some true => [[W "GENERATED"; W "BY"; W "DEFAULT"; W "AS"; W "IDENTITY"]] | Some false => [[W "DROP"; W "IDENTITY"]] | None => [] end)).
  { destruct id as [[]|]; inversion E4 as [|? y ? ? Ey E4']; subst; try (inversion E4'; subst; simpl in Ey; apply Ok_inj in Ey; subst y);
      repeat constructor. }
  repeat split; auto.
  - rewrite (join_sp_lex d _ _ (Forall2_app A1 (Forall2_app A2 (Forall2_app A3 A4)))). unfold ora_toks. rewrite !concat_app.
    destruct tt, td, nl as [[]|], id as [[]|]; cbn [some_list map concat app]; rewrite ?app_nil_r; reflexivity.
  - exists t, df, nl, id. repeat split; auto.
Qed.
Lemma ora_bal t df nl id : opt_all ty_toks t -> opt_all expr_toks df -> bal item_stop 0 (ora_toks t df nl id) = true.
Proof.
  intros T D. unfold ora_toks. repeat apply bal_app.
  - destruct t; [apply bal_item, T|reflexivity].
  - destruct df; [apply expr_item in D; exact D|reflexivity].
  - destruct nl as [[]|]; reflexivity.
  - destruct id as [[]|]; reflexivity.
Qed.

(** ** One action *)
Definition not_double (a : action) : Prop := match a with ADropDefaultColumn _ _ => False | _ => True end.
Definition act_item (d : dialect) (a : action) (ts : list token) : Prop :=
  ts <> [] /\ bal item_stop 0 ts = true /\ exists p, table_action d ts = Some p /\ says_action d [p] a.
Ltac lets := repeat first [reflexivity | exact Logic.I].
Lemma action_lex d a s : not_double a -> action_ok d a -> render_action d a = Ok s -> exists ts, lex d s = Some ts /\ act_item d a ts.
Proof.
  intros ND H E. destruct a; cbn [action_ok render_action] in H, E; cbv zeta in E.
  - (* add column *) destruct H as [Hd Hc]. apply bind_inv in E as (x & Ex & E). apply Ok_inj in E. subst s.
    destruct (coldef_lex d c x Hc Ex) as (ts & A & B & (r & R) & p & P & Sp).
    exists (match d with DMSSQL => W "ADD" :: ts | _ => W "ADD" :: W "COLUMN" :: ts end). split.
    + destruct d; first [ apply (app_ends _ "ADD COLUMN " _ [W "ADD"; W "COLUMN"] ts); [reflexivity|reflexivity|exact A]
                        | apply (app_ends _ "ADD " _ [W "ADD"] ts); [reflexivity|reflexivity|exact A] ].
    + split; [destruct d; discriminate|]. split; [destruct d; exact B|]. exists (PAddColumn p).
      split; [|exists p; split; [reflexivity|exact Sp]].
      destruct d; try congruence; unfold table_action; subst ts; cbn [kw String.eqb Ascii.eqb Bool.eqb];
        rewrite P; reflexivity.
  - (* drop column *) apply Ok_inj in E. subst s. exists [W "DROP"; W "COLUMN"; I n]. split.
    + apply (app_ends d "DROP COLUMN " _ [W "DROP"; W "COLUMN"] [I n]); [reflexivity|reflexivity|apply lex_ident].
    + split; [discriminate|]. split; [reflexivity|]. exists (PDropColumn n). split; reflexivity.
  - destruct ND.
  - (* rename *) apply Ok_inj in E. subst s. exists [W "RENAME"; W "COLUMN"; I n; W "TO"; I m]. split.
    + apply (app_ends d "RENAME COLUMN " _ [W "RENAME"; W "COLUMN"] _); [reflexivity|reflexivity|].
      apply (app_lead d _ _ [I n] _); [apply lex_ident| |reflexivity].
      apply (app_ends d " TO " _ [W "TO"] _); [reflexivity|reflexivity|apply lex_ident].
    + split; [discriminate|]. split; [reflexivity|]. exists (PRenameColumn n m). split; [|reflexivity].
      destruct d; try congruence; reflexivity.
  - (* change *) destruct H as [-> Hc]. apply bind_inv in E as (x & Ex & E). apply Ok_inj in E. subst s.
    destruct (coldef_lex DMySQL c x Hc Ex) as (ts & A & B & _ & p & P & Sp).
    exists (W "CHANGE" :: I n :: ts). split.
    + apply (app_ends _ "CHANGE " _ [W "CHANGE"] _); [reflexivity|reflexivity|].
      apply (app_lead _ _ _ [I n] _); [apply lex_ident| |reflexivity].
      apply (app_ends _ " " _ [] _); [reflexivity|reflexivity|exact A].
    + split; [discriminate|]. split; [exact B|]. exists (PChangeColumn n p). split; [|exists p; split; [reflexivity|exact Sp]].
      unfold table_action. cbn [kw ident String.eqb Ascii.eqb Bool.eqb]. now rewrite P.
  - (* set type *) destruct H as [Hd Ht]. apply bind_inv in E as (x & Ex & E). apply Ok_inj in E. subst s.
    destruct (type_lex d t x Ht Ex) as (ts & A & T). exists (W "ALTER" :: W "COLUMN" :: I n :: W "SET" :: W "DATA" :: W "TYPE" :: ts). split.
    + apply (app_ends d "ALTER COLUMN " _ [W "ALTER"; W "COLUMN"] _); [reflexivity|reflexivity|].
      apply (app_lead d _ _ [I n] _); [apply lex_ident| |reflexivity].
      apply (app_ends d " " _ [] _); [reflexivity|reflexivity|].
      apply (app_ends d "SET DATA TYPE " _ [W "SET"; W "DATA"; W "TYPE"] _); [reflexivity|reflexivity|exact A].
    + split; [discriminate|]. split; [exact (bal_item _ (proj2 T))|]. exists (PSetType n ts). split; [|exists ts; split; [reflexivity|exists x; auto]].
      destruct d; try destruct Hd; unfold table_action, alter_column; cbn [kw ident String.eqb Ascii.eqb Bool.eqb]; rewrite (typ_end _ T); reflexivity.
  - apply Ok_inj in E. subst s. exists [W "ALTER"; W "COLUMN"; I n; W "SET"; W "NOT"; W "NULL"]. split.
    + apply (app_ends d "ALTER COLUMN " _ [W "ALTER"; W "COLUMN"] _); [reflexivity|reflexivity|].
      apply (app_lead d _ _ [I n] _); [apply lex_ident|reflexivity|reflexivity].
    + split; [discriminate|]. split; [reflexivity|]. exists (PSetNotNull n). split; [destruct d; try destruct H; reflexivity|reflexivity].
  - apply Ok_inj in E. subst s. exists [W "ALTER"; W "COLUMN"; I n; W "DROP"; W "NOT"; W "NULL"]. split.
    + apply (app_ends d "ALTER COLUMN " _ [W "ALTER"; W "COLUMN"] _); [reflexivity|reflexivity|].
      apply (app_lead d _ _ [I n] _); [apply lex_ident|reflexivity|reflexivity].
    + split; [discriminate|]. split; [reflexivity|]. exists (PDropNotNull n). split; [destruct d; try destruct H; reflexivity|reflexivity].
  - (* set default *) destruct H as [Hd He]. apply Ok_inj in E. subst s. destruct (expr_ok_toks d e He) as (ts & A & T).
    exists (W "ALTER" :: W "COLUMN" :: I n :: W "SET" :: W "DEFAULT" :: ts). split.
    + apply (app_ends d "ALTER COLUMN " _ [W "ALTER"; W "COLUMN"] _); [reflexivity|reflexivity|].
      apply (app_lead d _ _ [I n] _); [apply lex_ident| |reflexivity].
      apply (app_ends d " " _ [] _); [reflexivity|reflexivity|].
      apply (app_ends d "SET DEFAULT " _ [W "SET"; W "DEFAULT"] _); [reflexivity|reflexivity|exact A].
    + split; [discriminate|]. split; [exact (expr_item _ T)|]. exists (PSetDefault n ts). split; [|exists ts; split; [reflexivity|exact A]].
      destruct d; try destruct Hd; unfold table_action, alter_column; cbn [kw ident String.eqb Ascii.eqb Bool.eqb]; rewrite (expr_end _ T); reflexivity.
  - apply Ok_inj in E. subst s. exists [W "ALTER"; W "COLUMN"; I n; W "DROP"; W "DEFAULT"]. split.
    + apply (app_ends d "ALTER COLUMN " _ [W "ALTER"; W "COLUMN"] _); [reflexivity|reflexivity|].
      apply (app_lead d _ _ [I n] _); [apply lex_ident|reflexivity|reflexivity].
    + split; [discriminate|]. split; [reflexivity|]. exists (PDropDefault n). split; [destruct d; try destruct H; reflexivity|reflexivity].
  - apply Ok_inj in E. subst s. exists [W "ALTER"; W "COLUMN"; I n; W "DROP"; W "IDENTITY"]. split.
    + apply (app_ends d "ALTER COLUMN " _ [W "ALTER"; W "COLUMN"] _); [reflexivity|reflexivity|].
      apply (app_lead d _ _ [I n] _); [apply lex_ident|reflexivity|reflexivity].
    + split; [discriminate|]. split; [reflexivity|]. exists (PDropIdentity n). split; [destruct d; try destruct H; reflexivity|reflexivity].
  - apply Ok_inj in E. subst s. exists [W "ALTER"; W "COLUMN"; I n; W "ADD"; W "GENERATED"; W "BY"; W "DEFAULT"; W "AS"; W "IDENTITY"]. split.
    + apply (app_ends d "ALTER COLUMN " _ [W "ALTER"; W "COLUMN"] _); [reflexivity|reflexivity|].
      apply (app_lead d _ _ [I n] _); [apply lex_ident|reflexivity|reflexivity].
    + split; [discriminate|]. split; [reflexivity|]. exists (PAddIdentity n). split; [destruct d; try destruct H; reflexivity|reflexivity].
  - (* modify column *) destruct H as [-> Hc]. apply bind_inv in E as (x & Ex & E). apply Ok_inj in E. subst s.
    destruct (coldef_lex DMySQL c x Hc Ex) as (ts & A & B & _ & p & P & Sp).
    exists (W "MODIFY" :: W "COLUMN" :: ts). split.
    + apply (app_ends _ "MODIFY COLUMN " _ [W "MODIFY"; W "COLUMN"] _); [reflexivity|reflexivity|exact A].
    + split; [discriminate|]. split; [exact B|]. exists (PModifyColumn p). split; [|exists p; split; [reflexivity|exact Sp]].
      unfold table_action. cbn [kw ident String.eqb Ascii.eqb Bool.eqb]. now rewrite P.
  - (* SQL Server ALTER COLUMN *) destruct H as [-> Ht]. apply bind_inv in E as (x & Ex & E). apply Ok_inj in E. subst s.
    destruct (type_lex DMSSQL t x Ht Ex) as (ts & A & T). exists (W "ALTER" :: W "COLUMN" :: I n :: ts ++ nn_toks notnull). split.
    + apply (app_ends _ "ALTER COLUMN " _ [W "ALTER"; W "COLUMN"] _); [reflexivity|reflexivity|].
      apply (app_lead _ _ _ [I n] _); [apply lex_ident| |reflexivity].
      apply (app_ends _ " " _ [] _); [reflexivity|reflexivity|].
      apply app_lead; [exact A|apply lex_nn|destruct notnull; reflexivity].
    + split; [discriminate|]. split.
      { change (bal item_stop 0 (ts ++ nn_toks notnull) = true). apply bal_app; [exact (bal_item _ (proj2 T))|destruct notnull; reflexivity]. }
      exists (PMsAlter n ts notnull). split; [|exists ts; split; [reflexivity|exists x; auto]].
      unfold table_action, alter_column; cbn [kw ident String.eqb Ascii.eqb Bool.eqb].
      rewrite (typ_app ts (nn_toks notnull) T) by (destruct notnull; (reflexivity || exact Logic.I)). destruct notnull; reflexivity.
  - (* Oracle MODIFY *) destruct H as (-> & Hc & t & df & nl & id & ->). apply bind_inv in E as (l & El & E). apply Ok_inj in E. subst s.
    destruct (ora_lex DOracle t df nl id l Hc El) as (tt & td & A & T & D & Sm). exists (W "MODIFY" :: I n :: ora_toks tt td nl id). split.
    + apply (app_ends _ "MODIFY " _ [W "MODIFY"] _); [reflexivity|reflexivity|].
      apply (app_lead _ _ _ [I n] _); [apply lex_ident| |reflexivity].
      apply (app_ends _ " " _ [] _); [reflexivity|reflexivity|exact A].
    + split; [discriminate|]. split; [exact (ora_bal _ _ nl id T D)|]. exists (POraModify n (PM tt td nl id)).
      split; [|exists (PM tt td nl id); split; [reflexivity|exact Sm]].
      unfold table_action. cbn [kw ident String.eqb Ascii.eqb Bool.eqb]. now rewrite (modify_parse _ _ _ _ T D).
  - (* add constraint *) apply bind_inv in E as (x & Ex & E). apply Ok_inj in E. subst s.
    destruct (constr_lex d k x H Ex) as (n & ts & p & A & B & P & Sk & Nk). exists (W "ADD" :: W "CONSTRAINT" :: I n :: ts). split.
    + apply (app_ends d "ADD CONSTRAINT " _ [W "ADD"; W "CONSTRAINT"] _); [reflexivity|reflexivity|exact A].
    + split; [discriminate|]. split; [exact B|]. exists (PAddConstraint n p). split; [|exists n, p; split; [reflexivity|exact Sk]].
      unfold table_action. cbn [kw String.eqb Ascii.eqb Bool.eqb]. unfold add_constraint. cbn [ident].
      assert (N' : match d with DMSSQL => kw ["DEFAULT"] ts | _ => None end = None) by (destruct d; auto). rewrite N', P. reflexivity.
  - (* drop constraint *) apply Ok_inj in E. subst s. exists [W "DROP"; W "CONSTRAINT"; I n]. split.
    + apply (app_ends d "DROP CONSTRAINT " _ [W "DROP"; W "CONSTRAINT"] [I n]); [reflexivity|reflexivity|apply lex_ident].
    + split; [discriminate|]. split; [reflexivity|]. exists (PDropConstraint n). split; reflexivity.
  - (* add default *) destruct H as [-> He]. apply Ok_inj in E. subst s. destruct (expr_ok_toks DMSSQL e He) as (ts & A & T).
    exists (W "ADD" :: W "CONSTRAINT" :: I df :: W "DEFAULT" :: ts ++ [W "FOR"; I n]). split.
    + apply (app_ends _ "ADD CONSTRAINT " _ [W "ADD"; W "CONSTRAINT"] _); [reflexivity|reflexivity|].
      apply (app_lead _ _ _ [I df] _); [apply lex_ident| |reflexivity].
      apply (app_ends _ " DEFAULT " _ [W "DEFAULT"] _); [reflexivity|reflexivity|].
      apply app_lead; [exact A| |reflexivity].
      apply (app_ends _ " FOR " _ [W "FOR"] _); [reflexivity|reflexivity|apply lex_ident].
    + split; [discriminate|]. split.
      { change (bal item_stop 0 (ts ++ [W "FOR"; I n]) = true). apply bal_app; [exact (expr_item _ T)|reflexivity]. }
      exists (PAddDefault df ts n). split; [|exists ts; split; [reflexivity|exact A]].
      unfold table_action, add_constraint. cbn [kw ident String.eqb Ascii.eqb Bool.eqb].
      rewrite (expr_app ts [W "FOR"; I n] T) by reflexivity. reflexivity.
Qed.
