(** * C54: the text of each statement says exactly what was meant
    The scripts that the library writes ([Render.v]) are read back with an independent lexer and parser
    ([SqlText.v]); what is read agrees with what was meant ([TextSpec.v], [CatTextSpec.v]). *)
From Verif Require Import PyStr QuoteModel QuoteSpec QuoteProofs ObjectDict Types Objects SqlAst Ddl Mutate Render ExCat SqlText TextSpec CatTextSpec LexProofs TextProofs1 TextProofs2 TextProofs3 TextProofs7 TextProofs8.
From Coq Require Import String List Bool Arith Ascii ZArith Lia.
Import ListNotations.
Open Scope string_scope.
Open Scope list_scope.

(** A statement that is written can be read, and says what was meant. *)
Theorem C54_statement : forall d s text,
  stmt_ok d s -> render d s = Ok text ->
  exists p, read d text = Some [p] /\ says d p s.
Proof.
  intros d s text H E.
  destruct (script_read d [s] [text]) as (ps & R & F); [now repeat constructor|cbn [map_res]; rewrite E; reflexivity|discriminate|].
  inversion F as [|p ? ps' ? Hp F']; subst. inversion F'; subst. exists p. split; [exact R|exact Hp].
Qed.
Print Assumptions C54_statement.

(** A script is read as the same number of statements, in the same order, each saying what was meant:
    no name, text, default or condition can end a statement or begin another one. *)
Theorem C54_script : forall d ss text,
  Forall (stmt_ok d) ss -> render_script d ss = Ok (Some text) ->
  exists ps, read d text = Some ps /\ Forall2 (says d) ps ss.
Proof.
  intros d ss text H E. unfold render_script in E. apply bind_inv in E as (l & El & E). apply Ok_inj in E.
  destruct l as [|x l]; [discriminate|]. assert (Z : text = join_str NL (x :: l)) by congruence. rewrite Z. eapply script_read; [exact H|exact El|discriminate].
Qed.
Print Assumptions C54_script.

(** The script of a synchronization.  [engine_has] is what SQL Server and Oracle lack (refuted below). *)
Theorem C54_mutate_script : forall d o s t s' t' ss text,
  cat_text d s -> cat_text d t ->
  mutate_catalog d o s t = Ok (s', t', ss) -> Forall (engine_has d) ss ->
  mutate_text d o s t = Ok (Some text) ->
  exists ps, read d text = Some ps /\ Forall2 (says d) ps ss.
Proof.
  intros d o s t s' t' ss text Hs Ht E Eh T. unfold mutate_text in T. rewrite E in T. cbn [bind snd] in T.
  eapply C54_script; [|exact T]. eapply mutate_ok; [exact Hs|exact Ht|exact E|exact Eh].
Qed.
Print Assumptions C54_mutate_script.
Theorem C54_mutate_script_always : forall d o s t text,
  d <> DMSSQL -> d <> DOracle -> cat_text d s -> cat_text d t ->
  mutate_text d o s t = Ok (Some text) ->
  exists s' t' ss ps, mutate_catalog d o s t = Ok (s', t', ss) /\ read d text = Some ps /\ Forall2 (says d) ps ss.
Proof.
  intros d o s t text N1 N2 Hs Ht T. pose proof T as T'. unfold mutate_text in T'. apply bind_inv in T' as ([[s' t'] ss] & E & _).
  destruct (C54_mutate_script d o s t s' t' ss text) as (ps & R & F); auto; [|exists s', t', ss, ps; auto].
  apply Forall_forall. intros x _. destruct d; congruence || exact Logic.I.
Qed.
Print Assumptions C54_mutate_script_always.
(** Creating all objects of a catalog, on every engine: object_types.py:819-833 *)
Theorem C54_create_script : forall d c c' ss text,
  cat_text d c -> cat_create d c = Ok (c', ss) ->
  render_script d (ss ++ cat_add_constraints d c') = Ok (Some text) ->
  exists ps, read d text = Some ps /\ Forall2 (says d) ps (ss ++ cat_add_constraints d c').
Proof. intros d c c' ss text H E T. eapply C54_script; [|exact T]. eapply create_ok; eauto. Qed.
Print Assumptions C54_create_script.
Theorem C54_drop_script : forall d c c' ss text,
  cat_text d c -> cat_drop d c = Ok (c', ss) -> render_script d ss = Ok (Some text) ->
  exists ps, read d text = Some ps /\ Forall2 (says d) ps ss.
Proof. intros d c c' ss text H E T. eapply C54_script; [|exact T]. eapply drop_ok; eauto. Qed.
Print Assumptions C54_drop_script.

(** Dropping the constraints of all tables; for Oracle see the refutation below. *)
Theorem C54_drop_constraints_script : forall d c text,
  d <> DOracle -> cat_text d c -> render_script d (cat_drop_constraints c) = Ok (Some text) ->
  exists ps, read d text = Some ps /\ Forall2 (says d) ps (cat_drop_constraints c).
Proof.
  intros d c text N H T. eapply C54_script; [|exact T]. apply Forall_forall. intros st J.
  unfold cat_drop_constraints in J. apply in_flat_map in J as (n & In_ & J). unfold ns_drop_constraints in J. apply in_flat_map in J as (tb & It & J).
  eapply drop_constraints_ok; [exact (proj2 (proj2 (proj2 (H n In_))) tb It)|exact J|]. unfold drop_constraints in J. destruct (table_constraints tb); [destruct J|]. destruct J as [<-|[]].
  destruct d; try exact Logic.I; [|congruence]. intros a b Z. apply in_map_iff in Z as (? & Z & _). discriminate.
Qed.
Print Assumptions C54_drop_constraints_script.

(** The defaults and conditions that come from Python values meet the provisos. *)
Theorem C54_constant_default : forall d v e,
  scalar_ok d v -> constant v = Ok e -> expr_ok d e.
Proof.
  intros d v e H E. destruct v as [x|b|z|l|]; cbn [scalar_ok] in H; try contradiction; cbn [constant] in E; apply Ok_inj in E; subst e.
  - exists [L x]. split; [now apply lex_quote|reflexivity].
  - exists [W (if b then "TRUE" else "FALSE")]. destruct b; split; reflexivity.
  - exists (z_toks z). split; [apply lex_z|]. destruct z as [|p|p]; try reflexivity.
    cbn [z_toks bal is_sym]. change (Ascii.eqb "-" ";") with false. change (Ascii.eqb "-" "(") with false. change (Ascii.eqb "-" ")") with false.
    assert (W0 : clause_stop (W (n_to_str (Npos p))) = false).
    { unfold clause_stop, is_word, clause_words. destruct (n_to_str_nonempty (Npos p)) as (c & r & -> & D). cbn [is_sym orb existsb].
      destruct c as [[] [] [] [] [] [] [] []]; vm_compute in D; try discriminate D; reflexivity. }
    rewrite W0. reflexivity.
Qed.
Print Assumptions C54_constant_default.
(** "column" IN (values): py_to_sql.py:789-797 *)
Theorem C54_choice_condition : forall d n vs l,
  Forall (scalar_ok d) vs -> map_res constant vs = Ok l ->
  cond_ok d ((local_quoted n ++ " IN (" ++ join_str ", " l ++ ")")%string).
Proof.
  intros d n vs l H E.
  assert (G : exists tss, Forall2 (fun s t => lex d s = Some t) l tss /\ Forall (fun x => bal item_stop 0 x = true) tss).
  { revert l E. induction H as [|v vs Hv H IH]; intros l E; cbn [map_res] in E; [apply Ok_inj in E; subst l; exists []; split; constructor|].
    apply bind_inv in E as (s & Es & E). apply bind_inv in E as (r & Er & E). apply Ok_inj in E. subst l.
    destruct (scalar_lex d v s Hv Es) as (ts & p & L1 & B1 & _). destruct (IH r Er) as (tss & F1 & F2). exists (ts :: tss). split; constructor; auto. }
  destruct G as (tss & F1 & F2).
  exists (I n :: W "IN" :: C "(" :: join_toks tss ++ [C ")"]). split.
  - change (I n :: W "IN" :: C "(" :: join_toks tss ++ [C ")"]) with ([I n] ++ ([W "IN"; C "("] ++ (join_toks tss ++ [C ")"]))).
    apply app_lead; [apply lex_ident| |reflexivity].
    apply (app_ends d " IN (" _ [W "IN"; C "("]); [reflexivity|destruct d; reflexivity|].
    apply app_lead; [|destruct d; reflexivity|reflexivity]. apply lex_join; [left; reflexivity|exact F1].
  - change (bal item_stop 0 (I n :: W "IN" :: ?x)) with (bal item_stop 0 x).
    cbn [bal is_sym item_stop andb Nat.eqb]. change (Ascii.eqb "(" ";") with false. cbv iota.
    pose proof (bal_inner item_stop no_stop (join_toks tss) []) as P. apply P; [|reflexivity]. apply TextProofs4.bal_join_items. exact F2.
Qed.
Print Assumptions C54_choice_condition.
(** (column >= a) AND (column <= b): py_to_sql.py:819-830 *)
Theorem C54_range_condition : forall d n lo hi l,
  l = (match lo with Some z => [(local_quoted n ++ " >= " ++ z_to_str z)%string] | None => [] end ++
       match hi with Some z => [(local_quoted n ++ " <= " ++ z_to_str z)%string] | None => [] end) ->
  cond_ok d (join_str " AND " (map (fun c => "(" ++ c ++ ")")%string l)).
Proof.
  intros d n lo hi l ->.
  assert (One : forall op tsop z, lex d op = Some tsop -> ends op = true -> lead op = true -> tsop = [C ">"; C "="] \/ tsop = [C "<"; C "="] ->
            exists ts, lex d ("(" ++ (local_quoted n ++ op ++ z_to_str z) ++ ")")%string = Some ts /\ bal item_stop 0 ts = true).
  { intros op tsop z Lop Ends Lead Hop. exists (C "(" :: ([I n] ++ (tsop ++ z_toks z)) ++ [C ")"]). split.
    - apply (app_ends d "(" _ [C "("]); [reflexivity|destruct d; reflexivity|]. apply app_lead; [|destruct d; reflexivity|reflexivity].
      apply app_lead; [apply lex_ident| |].
      + apply app_ends; [exact Ends|exact Lop|apply lex_z].
      + destruct op; [discriminate Ends|exact Lead].
    - apply (bal_inner item_stop no_stop); [|reflexivity]. destruct Hop as [-> | ->]; destruct z; reflexivity. }
  destruct (One " >= " [C ">"; C "="]) with (z := match lo with Some z => z | None => 0%Z end) as (t1 & L1 & B1); [destruct d; reflexivity|reflexivity|reflexivity|now left|].
  destruct (One " <= " [C "<"; C "="]) with (z := match hi with Some z => z | None => 0%Z end) as (t2 & L2 & B2); [destruct d; reflexivity|reflexivity|reflexivity|now right|].
  destruct lo as [lo|], hi as [hi|]; cbn [app map join_str].
  - exists (t1 ++ ([W "AND"] ++ t2)). split.
    + apply app_lead; [exact L1| |reflexivity]. apply app_ends; [reflexivity|destruct d; reflexivity|exact L2].
    + apply bal_app; [exact B1|]. exact B2.
  - exists t1. split; assumption.
  - exists t2. split; assumption.
  - exists []. split; [destruct d; reflexivity|reflexivity].
Qed.
Print Assumptions C54_range_condition.

(** ** What the engines do not read *)
(** Oracle has ADD (column) but no ADD COLUMN: the script of every synchronization that adds a column to a table
    is rejected (object_types.py:219-220, not overridden in dialect/oracle/object_types.py). *)
Definition one_table (cols : list column) (ks : list constr) : catalog :=
  [Ns "" [] [] [Tab (Qualified None "T") cols ["id"] ks None None]].
Definition id_col := Col "id" (TInt 4 true None None) false None false None.
Definition num_col (n : string) := Col n (TInt 4 true None None) true None false None.
Theorem C54_oracle_add_column_refuted : exists s t text,
  cat_text DOracle s /\ cat_text DOracle t /\ mutate_text DOracle default_options s t = Ok (Some text) /\ read DOracle text = None.
Proof.
  exists (one_table [id_col] []), (one_table [id_col; num_col "n"] []).
  eexists. split; [|split; [|split; [vm_compute; reflexivity|vm_compute; reflexivity]]].
  all: intros n [<-|[]]; split; [discriminate|]; split; [intros e []|]; split; [intros e []|].
  all: intros x [<-|[]]; split; [exact Logic.I|]; split; [discriminate|]; split; [|split; [intros k []|split; [discriminate|discriminate]]].
  all: cbn [In t_columns]; intros c; intuition; subst c; (split; [exact Logic.I|]; split; [discriminate|]; split; [discriminate|discriminate]).
Qed.
Print Assumptions C54_oracle_add_column_refuted.
(** Several constraints are dropped in one statement, separated by commas; Oracle takes no commas
    (object_types.py:566-577, not overridden). *)
Theorem C54_oracle_drop_constraints_refuted : exists s text,
  cat_text DOracle s /\ render_script DOracle (cat_drop_constraints s) = Ok (Some text) /\ read DOracle text = None.
Proof.
  exists (one_table [id_col; num_col "n"] [CUnique "u" ["n"]; CUnique "v" ["id"; "n"]]).
  eexists. split; [|split; [vm_compute; reflexivity|vm_compute; reflexivity]].
  intros n [<-|[]]; split; [discriminate|]; split; [intros e []|]; split; [intros e []|].
  intros x [<-|[]]; split; [exact Logic.I|]; split; [discriminate|]; split; [|split; [|split; [discriminate|discriminate]]].
  - cbn [In t_columns]; intros c; intuition; subst c; (split; [exact Logic.I|]; split; [discriminate|]; split; [discriminate|discriminate]).
  - cbn [In t_constraints]; intros k; intuition; subst k; discriminate.
Qed.
Print Assumptions C54_oracle_drop_constraints_refuted.
(** SQL Server has no RENAME COLUMN: a column whose values must be moved to another type cannot be set aside
    (object_types.py:236-237, not overridden in dialect/mssql/object_types.py). *)
Definition old_state := Col "state" (TSub MsVarChar (TVarChar (Some 16%Z))) true None false None.
Definition new_state := Col "state" (TInt 4 true None None) true None false None.
Theorem C54_mssql_rename_column_refuted : exists s t text,
  cat_text DMSSQL s /\ cat_text DMSSQL t /\ mutate_text DMSSQL default_options s t = Ok (Some text) /\ read DMSSQL text = None.
Proof.
  exists (one_table [id_col; old_state] []), (one_table [id_col; new_state] []).
  eexists. split; [|split; [|split; [vm_compute; reflexivity|vm_compute; reflexivity]]].
  all: intros n [<-|[]]; split; [intros _; reflexivity|]; split; [intros e []|]; split; [intros e []|].
  all: intros x [<-|[]]; split; [exact Logic.I|]; split; [discriminate|]; split; [|split; [intros k []|split; [discriminate|discriminate]]].
  all: cbn [In t_columns one_table]; intros c; intuition; subst c; (split; [exact Logic.I|]; split; [discriminate|]; split; [discriminate|discriminate]).
Qed.
Print Assumptions C54_mssql_rename_column_refuted.

(** ** Examples *)
Ltac text_cat :=
  repeat match goal with
  | |- cat_text _ _ => intros ? ?
  | |- table_text _ _ => unfold table_text
  | |- enum_text _ _ => unfold enum_text
  | |- struct_text _ _ => unfold struct_text
  | |- col_text _ _ => unfold col_text
  | H : In ?x ?l |- _ => let l' := eval hnf in l in change (In x l') in H; cbn [In] in H
  | H : _ = _ \/ _ |- _ => destruct H as [<-|H]
  | H : False |- _ => destruct H
  | |- _ /\ _ => split
  | |- forall _, _ => intros ?
  | H : ?a = Some _ |- _ => cbv in H; (discriminate H || (injection H as <-))
  | H : ?a = TEnum _ |- _ => cbv in H; (discriminate H || (injection H as <-))
  | H : is_alter _ = true |- _ => clear H
  | H : DMSSQL = DMySQL |- _ => discriminate H
  | H : DPg = DMySQL |- _ => discriminate H
  | |- _ <> _ => discriminate
  | |- expr_ok _ _ => eexists; split; [vm_compute; reflexivity|reflexivity]
  | |- constr_ok _ (CCheck _ _) => eexists; split; [vm_compute; reflexivity|reflexivity]
  | |- constr_ok _ _ => hnf
  | |- Forall _ _ => repeat (apply Forall_cons); try apply Forall_nil; cbn
  | |- exists c, In c (t_columns _) /\ _ => eexists; split; [right; left; reflexivity|split; [cbn; intuition discriminate|reflexivity]]
  end; try exact Logic.I; try reflexivity; try discriminate.
Example C54_ex_ms_text : cat_text DMSSQL ex_ms.
Proof. text_cat. Qed.
Example C54_ex_person_pg : cat_text DPg (ex_person (TVarChar None)).
Proof. text_cat. Qed.
Example C54_ex_person_my : cat_text DMySQL (ex_person (TSub MyVarChar (TVarChar None))).
Proof. text_cat. Qed.
Example C54_ex_cat1 : cat_text DPg cat1.
Proof. text_cat. Qed.
Example C54_ex_cat2 : cat_text DPg cat2.
Proof. text_cat. Qed.
Definition is_some {A} (x : res (option A)) : bool := match x with Ok (Some _) => true | _ => false end.
Example C54_ex_script12 : is_some (mutate_text DPg default_options cat1 cat2) = true
  /\ match mutate_text DPg default_options cat1 cat2 with
     | Ok (Some text) => option_map (@length _) (read DPg text) | _ => None end = Some 15.
Proof. split; vm_compute; reflexivity. Qed.
Example C54_ex_create_all : forall d, In d [DBase; DPg; DMySQL; DMSSQL; DOracle; DSnow] ->
  is_some (mutate_text d default_options [] (ex_person (TVarChar (Some 20%Z)))) = true
  /\ match mutate_text d default_options [] (ex_person (TVarChar (Some 20%Z))) with
     | Ok (Some text) => read d text <> None | _ => False end.
Proof. cbn [In]. intros d H. repeat (destruct H as [<-|H]; [split; vm_compute; [reflexivity|discriminate]|]). destruct H. Qed.
(** a table, a column and a value that would end the statement if they were not quoted *)
Definition evil := "x""; DROP TABLE ""y""; -- ".
Example C54_ex_evil :
  match render_script DPg [SCreateEnum (Qualified (Some evil) evil) ["a'); DROP TABLE y; --"];
                           SAlterTable (Qualified None evil) [ADropColumn evil; ARenameColumn evil "b"]] with
  | Ok (Some text) => read DPg text | _ => None end
  = Some [PCreateEnum (Some evil, evil) ["a'); DROP TABLE y; --"]; PAlterTable (None, evil) [PDropColumn evil; PRenameColumn evil "b"]].
Proof. vm_compute. reflexivity. Qed.
(** the reader does reject: two statements run together, a missing parenthesis, a comment, a wrong keyword *)
Example C54_ex_reject :
  read DPg "DROP TABLE ""a"" DROP TABLE ""b"";" = None
  /\ read DPg "CREATE TYPE ""a"" AS ENUM ('x', 'y';" = None
  /\ read DPg "DROP TABLE ""a""; -- old" = None
  /\ read DPg "DROP TABEL ""a"";" = None
  /\ read DMySQL "CREATE TYPE ""a"" AS ENUM ('it\'s');" <> read DPg "CREATE TYPE ""a"" AS ENUM ('it\'s');".
Proof. repeat split; vm_compute; try reflexivity; discriminate. Qed.
