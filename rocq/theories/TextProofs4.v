(** Whole statements and scripts are read as meant. *)
From Verif Require Import PyStr QuoteModel QuoteSpec QuoteProofs Types Objects SqlAst Ddl Mutate Render SqlText TextSpec LexProofs TextProofs1 TextProofs2 TextProofs3.
From Coq Require Import String List Bool Arith Ascii ZArith Lia.
Import ListNotations.
Open Scope string_scope.
Open Scope list_scope.

(** ** ALTER TABLE *)
Lemma bal_join_items l : Forall (fun x => bal item_stop 0 x = true) l -> bal no_stop 0 (join_toks l) = true.
Proof. intros H. apply bal_join. eapply Forall_impl; [|exact H]. intros x. apply bal_none. Qed.
Lemma says_concat d ps acts : Forall2 (fun p a => says_action d [p] a) ps acts -> exists l, concat l = ps /\ Forall2 (says_action d) l acts.
Proof.
  induction 1 as [|p a ps acts H _ (l & E & IH)]; [exists []; split; [reflexivity|constructor]|].
  exists ([p] :: l). split; [simpl; now rewrite E|constructor; auto].
Qed.
(** the items of the action list are the actions *)
Lemma acts_lex d acts l : Forall (fun a => not_double a /\ action_ok d a) acts -> map_res (render_action d) acts = Ok l ->
  exists tss, Forall2 (fun s t => lex d s = Some t) l tss /\ Forall2 (act_item d) acts tss.
Proof.
  intros H E. apply map_res_Forall2 in E. revert H. induction E as [|a s acts l Ea E IH]; intros H; [exists []; split; constructor|].
  inversion H as [|? ? [H1 H2] H3]; subst. destruct (IH H3) as (tss & A & B). destruct (action_lex d a s H1 H2 Ea) as (ts & C1 & C2).
  exists (ts :: tss). split; constructor; auto.
Qed.
Lemma items_bal d acts tss : Forall2 (act_item d) acts tss -> Forall (fun x => bal item_stop 0 x = true) tss.
Proof. induction 1 as [|a t acts tss (_ & B & _) _ IH]; constructor; auto. Qed.
Lemma items_parse d acts tss : Forall2 (act_item d) acts tss -> exists ps, Forall2 (fun t p => table_action d t = Some p) tss ps
  /\ Forall2 (fun p a => says_action d [p] a) ps acts.
Proof.
  induction 1 as [|a t acts tss (_ & _ & p & P & Sp) _ (ps & A & B)]; [exists []; split; constructor|].
  exists (p :: ps). split; constructor; auto.
Qed.
Lemma no_comment d x r p : table_action d x = Some p -> kw ["COMMENT"] (x ++ r) = None.
Proof.
  intros H. destruct x as [|[w|n|v|c] x]; try reflexivity; [destruct d; discriminate H|].
  cbn [app kw]. destruct (String.eqb_spec w "COMMENT") as [->|]; [|reflexivity]. destruct d; discriminate H.
Qed.
Lemma no_dot d x r p : table_action d x = Some p -> sym "." (x ++ r) = None.
Proof. intros H. destruct x as [|[w|n|v|c] x]; try reflexivity; destruct d; discriminate H. Qed.

Definition alter_ok (d : dialect) (q : qid) (acts : list action) (txt : string) : Prop :=
  exists body ps l, lex d txt = Some (W "ALTER" :: W "TABLE" :: name_toks q ++ body ++ [C ";"])
    /\ bal no_stop 0 body = true /\ sym "." body = None /\ (d = DMySQL -> kw ["COMMENT"] body = None)
    /\ actions d body = Some ps /\ ps = concat l /\ Forall2 (says_action d) l acts.

(** one or more actions separated by commas, after the name and white space *)
Lemma alter_plain d q acts l sp txt : name_ok q -> acts <> [] -> Forall (fun a => not_double a /\ action_ok d a) acts ->
  (d = DOracle \/ d = DMSSQL -> length acts = 1) -> sp = " " \/ sp = NL ->
  map_res (render_action d) acts = Ok l -> txt = "ALTER TABLE " +++ quoted_id q +++ sp +++ join_str comma_nl l +++ ";" ->
  alter_ok d q acts txt.
Proof.
  intros Q N H One Sp E ->. destruct (acts_lex d acts l H E) as (tss & A & B). destruct (items_parse d acts tss B) as (ps & P & Sy).
  destruct (says_concat d ps acts Sy) as (cl & Ec & Sc). pose proof (items_bal _ _ _ B) as Bt.
  assert (Nt : tss <> []) by (intros ->; inversion B; subst; congruence).
  exists (join_toks tss), ps, cl. repeat split.
  - apply (app_ends d "ALTER TABLE " _ [W "ALTER"; W "TABLE"] _); [reflexivity|reflexivity|].
    apply app_lead; [now apply lex_qid| |destruct Sp as [-> | ->]; reflexivity].
    apply (app_ends d sp _ [] _); [destruct Sp as [-> | ->]; reflexivity|destruct Sp as [-> | ->]; reflexivity|].
    apply app_lead; [apply lex_join; [now right|exact A]|reflexivity|reflexivity].
  - now apply bal_join_items.
  - destruct P as [|t p tss ps Pt P]; [congruence|]. destruct tss as [|t2 tss].
    + rewrite <- (app_nil_r t). exact (no_dot d t _ p Pt).
    + exact (no_dot d t _ p Pt).
  - intros _. destruct P as [|t p tss ps Pt P]; [congruence|]. destruct tss as [|t2 tss].
    + rewrite <- (app_nil_r t). exact (no_comment d t _ p Pt).
    + exact (no_comment d t _ p Pt).
  - unfold actions. rewrite (commas_join tss Nt Bt). destruct P as [|t p tss ps Pt P]; [congruence|].
    destruct acts as [|a acts]; [congruence|].
    assert (X : each (table_action d) (t :: tss) = Some (p :: ps)) by (apply each_all; constructor; auto).
    destruct d; try exact X;
      (assert (tss = []) as -> by (inversion B as [|? ? ? ? _ B']; subst; specialize (One ltac:(auto)); destruct acts; [inversion B'; reflexivity|discriminate]));
      inversion P; subst; rewrite Pt; reflexivity.
  - now rewrite Ec.
  - exact Sc.
Qed.

(** SQL Server: several constraints after one ADD *)
Lemma alter_ms_add q ks l txt : name_ok q -> ks <> [] -> Forall (constr_ok DMSSQL) ks -> map_res constr_spec ks = Ok l ->
  txt = "ALTER TABLE " +++ quoted_id q +++ " ADD" +++ NL +++ join_str comma_nl (map (fun s => "CONSTRAINT " +++ s) l) +++ ";" ->
  alter_ok DMSSQL q (map AAddConstraint ks) txt.
Proof.
  intros Q N H E ->. apply map_res_Forall2 in E.
  assert (X : exists tss ps, Forall2 (fun s t => lex DMSSQL s = Some (W "CONSTRAINT" :: t)) (map (fun s => "CONSTRAINT " +++ s) l) tss
     /\ Forall (fun t => bal item_stop 0 t = true) tss
     /\ Forall2 (fun t p => add_constraint DMSSQL t = Some p) tss ps
     /\ Forall2 (fun p k => says_action DMSSQL [p] (AAddConstraint k)) ps ks).
  { clear N. revert H. induction E as [|k s ks l Ek E IH]; intros H; [exists [], []; repeat split; constructor|].
    inversion H as [|? ? H1 H2]; subst. destruct (IH H2) as (tss & ps & A & B & P & S).
    destruct (constr_lex DMSSQL k s H1 Ek) as (n & ts & p & A1 & B1 & P1 & S1 & N1).
    exists ((I n :: ts) :: tss), (PAddConstraint n p :: ps). repeat split; constructor; auto.
    - apply (app_ends DMSSQL "CONSTRAINT " _ [W "CONSTRAINT"] _); [reflexivity|reflexivity|exact A1].
    - unfold add_constraint. cbn [ident]. rewrite N1, P1. reflexivity.
    - exists n, p. auto. }
  destruct X as (tss & ps & A & B & P & S).
  assert (S' : Forall2 (fun p a => says_action DMSSQL [p] a) ps (map AAddConstraint ks)) by (clear - S; induction S; constructor; auto).
  destruct (says_concat _ _ _ S') as (cl & Ec & Sc).
  destruct tss as [|t tss]; [exfalso; inversion P; subst; inversion S; subst; congruence|].
  destruct ps as [|p ps]; [inversion P|].
  set (items := (W "ADD" :: W "CONSTRAINT" :: t) :: map (cons (W "CONSTRAINT")) tss).
  assert (Bi : Forall (fun x => bal item_stop 0 x = true) items).
  { unfold items. inversion B as [|? ? B1 B2]; subst. constructor; [exact B1|]. apply Forall_map.
    eapply Forall_impl; [|exact B2]. intros x Hx. exact Hx. }
  assert (J : join_toks items = W "ADD" :: join_toks (map (cons (W "CONSTRAINT")) (t :: tss))).
  { unfold items. destruct tss; reflexivity. }
  exists (join_toks items), (p :: ps), cl. repeat split.
  - rewrite J. apply (app_ends _ "ALTER TABLE " _ [W "ALTER"; W "TABLE"] _); [reflexivity|reflexivity|].
    apply app_lead; [now apply lex_qid| |reflexivity].
    change (" ADD" +++ NL +++ join_str comma_nl (map (fun s => "CONSTRAINT " +++ s) l) +++ ";")
      with ((" ADD" +++ NL) +++ join_str comma_nl (map (fun s => "CONSTRAINT " +++ s) l) +++ ";").
    apply (app_ends _ (" ADD" +++ NL) _ [W "ADD"] _); [reflexivity|reflexivity|].
    apply app_lead; [|reflexivity|reflexivity]. apply lex_join; [now right|].
    clear - A. induction A; constructor; auto.
  - now apply bal_join_items.
  - rewrite J. reflexivity.
  - discriminate.
  - unfold actions. rewrite (commas_join items) by (try discriminate; exact Bi). unfold items.
    inversion P as [|? ? ? ? P1 P2]; subst.
    assert (T : table_action DMSSQL (W "ADD" :: W "CONSTRAINT" :: t) = Some p) by exact P1. rewrite T.
    destruct tss as [|t2 tss]; [inversion P2; subst; reflexivity|].
    change (map (cons (W "CONSTRAINT")) (t2 :: tss)) with ((W "CONSTRAINT" :: t2) :: map (cons (W "CONSTRAINT")) tss).
    change ((W "CONSTRAINT" :: t2) :: map (cons (W "CONSTRAINT")) tss) with (map (cons (W "CONSTRAINT")) (t2 :: tss)).
    assert (Y : each (ms_more false) (map (cons (W "CONSTRAINT")) (t2 :: tss)) = Some ps).
    { apply each_all. clear - P2. induction P2 as [|x y l m H _ IH]; constructor; auto. }
    change (kw ["DROP"] (W "ADD" :: W "CONSTRAINT" :: t)) with (@None (list token)). cbn iota. rewrite Y. reflexivity.
  - now rewrite Ec.
  - exact Sc.
Qed.

(** SQL Server: several constraints and columns after one DROP *)
Definition drop_items (a : action) : list (list token) :=
  match a with
  | ADropColumn n => [[W "COLUMN"; I n]]
  | ADropConstraint n => [[W "CONSTRAINT"; I n]]
  | ADropDefaultColumn k n => [[W "CONSTRAINT"; I k]; [W "COLUMN"; I n]]
  | _ => [] end.
Definition drop_acts (a : action) : list paction :=
  match a with
  | ADropColumn n => [PDropColumn n] | ADropConstraint n => [PDropConstraint n]
  | ADropDefaultColumn k n => [PDropConstraint k; PDropColumn n] | _ => [] end.
Lemma remove_drop x : remove_prefix "DROP " ("DROP " +++ x) = x.
Proof. unfold remove_prefix. now rewrite drop_prefix_app. Qed.
Lemma drop_text a s : is_drop a -> render_action DMSSQL a = Ok s -> exists r, s = "DROP " +++ r
  /\ lex DMSSQL r = Some (join_toks (drop_items a)).
Proof.
  destruct a; intros H E; try destruct H; cbn [render_action] in E; apply Ok_inj in E; subst s; eexists; (split; [reflexivity|]).
  - apply (app_ends _ "COLUMN " _ [W "COLUMN"] _); [reflexivity|reflexivity|apply lex_ident].
  - apply (app_ends _ "CONSTRAINT " _ [W "CONSTRAINT"] _); [reflexivity|reflexivity|].
    apply (app_lead _ _ _ [I df] _); [apply lex_ident| |reflexivity].
    apply (app_ends _ ", COLUMN " _ [C ","; W "COLUMN"] _); [reflexivity|reflexivity|apply lex_ident].
  - apply (app_ends _ "CONSTRAINT " _ [W "CONSTRAINT"] _); [reflexivity|reflexivity|apply lex_ident].
Qed.
Lemma join_toks_app a b : a <> [] -> b <> [] -> join_toks (a ++ b) = join_toks a ++ C "," :: join_toks b.
Proof.
  intros A B. induction a as [|x a IH]; [congruence|]. destruct a as [|y a].
  - destruct b; [congruence|reflexivity].
  - change ((x :: y :: a) ++ b) with (x :: (y :: a) ++ b). cbn [app]. change (join_toks (x :: y :: a ++ b)) with (x ++ C "," :: join_toks ((y :: a) ++ b)).
    rewrite IH by discriminate. change (join_toks (x :: y :: a)) with (x ++ C "," :: join_toks (y :: a)). now rewrite <- app_assoc.
Qed.
Lemma join_toks_concat ls : Forall (fun l => l <> []) ls -> join_toks (map join_toks ls) = join_toks (concat ls).
Proof.
  induction 1 as [|l ls Hl H IH]; [reflexivity|]. destruct H as [|l2 ls Hl2 H].
  - simpl. now rewrite app_nil_r.
  - change (map join_toks (l :: l2 :: ls)) with (join_toks l :: map join_toks (l2 :: ls)).
    change (join_toks (join_toks l :: map join_toks (l2 :: ls))) with (join_toks l ++ C "," :: join_toks (map join_toks (l2 :: ls))).
    rewrite IH. change (concat (l :: l2 :: ls)) with (l ++ concat (l2 :: ls)). rewrite join_toks_app; auto.
    simpl. destruct l2; [congruence|discriminate].
Qed.
Lemma drop_parse a : is_drop a -> Forall2 (fun t p => drop_one t = Some p) (drop_items a) (drop_acts a) /\ says_action DMSSQL (drop_acts a) a
  /\ drop_items a <> [] /\ Forall (fun x => bal item_stop 0 x = true) (drop_items a).
Proof. destruct a; intros H; try destruct H; repeat split; try discriminate; repeat constructor. Qed.
Lemma alter_ms_drop q acts l sp1 sp2 txt : name_ok q -> acts <> [] -> Forall is_drop acts -> map_res (render_action DMSSQL) acts = Ok l ->
  (sp1 = " DROP " /\ sp2 = "") \/ (sp1 = " DROP" +++ NL /\ sp2 = NL) ->
  txt = "ALTER TABLE " +++ quoted_id q +++ sp1 +++ join_str comma_nl (map (fun s => remove_prefix "DROP " s) l) +++ sp2 +++ ";" ->
  alter_ok DMSSQL q acts txt.
Proof.
  intros Q N H E Sp ->. apply map_res_Forall2 in E.
  assert (A : Forall2 (fun s t => lex DMSSQL s = Some t) (map (fun s => remove_prefix "DROP " s) l) (map (fun a => join_toks (drop_items a)) acts)).
  { clear N. revert H. induction E as [|a s acts l Ea E IH]; intros H; [constructor|]. inversion H; subst.
    destruct (drop_text a s ltac:(assumption) Ea) as (r & -> & Lr). cbn [map]. constructor; [now rewrite remove_drop|auto]. }
  set (its := flat_map drop_items acts). set (ps := flat_map drop_acts acts).
  assert (P : Forall2 (fun t p => drop_one t = Some p) its ps).
  { unfold its, ps. clear - H. induction H as [|a acts Ha H IH]; [constructor|]. cbn [flat_map]. apply Forall2_app; [apply drop_parse, Ha|exact IH]. }
  assert (Bi : Forall (fun x => bal item_stop 0 x = true) its).
  { unfold its. clear - H. induction H as [|a acts Ha H IH]; [constructor|]. cbn [flat_map]. apply Forall_app. split; [apply drop_parse, Ha|exact IH]. }
  assert (Ne : Forall (fun l => l <> []) (map drop_items acts)) by (apply Forall_map; eapply Forall_impl; [|exact H]; intros a Ha; now apply drop_parse).
  assert (J : join_toks (map (fun a => join_toks (drop_items a)) acts) = join_toks its).
  { rewrite <- (map_map drop_items join_toks). rewrite (join_toks_concat _ Ne). unfold its. now rewrite flat_map_concat_map. }
  assert (Ni : its <> []).
  { unfold its. destruct acts as [|a acts]; [congruence|]. inversion Ne as [|? ? Na _]; subst. cbn [flat_map]. destruct (drop_items a); [congruence|discriminate]. }
  assert (Ep : ps = concat (map drop_acts acts)) by (unfold ps; now rewrite flat_map_concat_map).
  clearbody its ps. destruct its as [|t its]; [congruence|]. destruct ps as [|p ps]; [inversion P|].
  assert (J2 : join_toks ((W "DROP" :: t) :: its) = W "DROP" :: join_toks (t :: its)) by (destruct its; reflexivity).
  exists (join_toks ((W "DROP" :: t) :: its)), (p :: ps), (map drop_acts acts). repeat split.
  - rewrite J2. apply (app_ends _ "ALTER TABLE " _ [W "ALTER"; W "TABLE"] _); [reflexivity|reflexivity|].
    apply app_lead; [now apply lex_qid| |destruct Sp as [[-> ->]|[-> ->]]; reflexivity].
    apply (app_ends _ sp1 _ [W "DROP"] _); [destruct Sp as [[-> ->]|[-> ->]]; reflexivity|destruct Sp as [[-> ->]|[-> ->]]; reflexivity|].
    rewrite <- J. apply app_lead; [apply lex_join; [now right|exact A]| |destruct Sp as [[-> ->]|[-> ->]]; reflexivity].
    destruct Sp as [[-> ->]|[-> ->]]; reflexivity.
  - apply bal_join_items. inversion Bi; subst. constructor; auto.
  - rewrite J2. reflexivity.
  - discriminate.
  - unfold actions. inversion Bi as [|? ? B1 B2]; subst. rewrite (commas_join ((W "DROP" :: t) :: its)) by (try discriminate; constructor; auto).
    inversion P as [|? ? ? ? P1 P2]; subst.
    assert (T : table_action DMSSQL (W "DROP" :: t) = Some p) by exact P1. rewrite T.
    destruct its as [|t2 its]; [inversion P2; subst; reflexivity|].
    change (kw ["DROP"] (W "DROP" :: t)) with (Some t). cbn iota.
    assert (Y : each (ms_more true) (t2 :: its) = Some ps) by (apply each_all; exact P2). rewrite Y. reflexivity.
  - exact Ep.
  - clear - H. induction H as [|a acts Ha H IH]; constructor; auto. now apply drop_parse.
Qed.

Lemma all_add_spec acts : all_add acts = true -> exists ks, acts = map AAddConstraint ks.
Proof.
  induction acts as [|a acts IH]; [exists []; reflexivity|]. cbn [all_add forallb]. destruct a; try discriminate. cbn [andb].
  intros H. destruct (IH H) as (ks & ->). now exists (k :: ks).
Qed.
Lemma all_add_map ks : all_add (map AAddConstraint ks) = true.
Proof. induction ks; auto. Qed.
Lemma map_res_map {A B D} (f : A -> B) (g : B -> res D) l : map_res g (map f l) = map_res (fun x => g (f x)) l.
Proof. induction l as [|x l IH]; [reflexivity|]. simpl. destruct (g (f x)); [|reflexivity]. simpl. now rewrite IH. Qed.
Lemma not_double_all d acts : d <> DMSSQL -> Forall (action_ok d) acts -> Forall (fun a => not_double a /\ action_ok d a) acts.
Proof.
  intros N H. eapply Forall_impl; [|exact H]. intros a Ha. split; [|exact Ha]. destruct a; try exact Logic.I. cbn in Ha. congruence.
Qed.
Lemma ms_add_text acts : all_add acts = true -> forall ks, acts = map AAddConstraint ks ->
  map_res (fun a => match a with AAddConstraint k => constr_spec k | _ => Err "" end) acts = map_res constr_spec ks.
Proof. intros _ ks ->. now rewrite map_res_map. Qed.

Lemma alter_lex d q acts txt : name_ok q -> actions_ok d acts -> render_alter d q acts = Ok txt -> alter_ok d q acts txt.
Proof.
  intros Q (N & H & Sh) E.
  assert (Plain : d <> DMSSQL -> d <> DOracle -> alter_ok d q acts txt).
  { intros N1 N2. unfold render_alter in E.
    assert (E' : (do l <- map_res (render_action d) acts; Ok ("ALTER TABLE " +++ quoted_id q +++ NL +++ join_str comma_nl l +++ ";")) = Ok txt)
      by (destruct d; try congruence; exact E).
    apply bind_inv in E' as (l & El & E'). apply Ok_inj in E'.
    apply (alter_plain d q acts l NL); auto using not_double_all. intros [? | ?]; congruence. }
  destruct d; try (apply Plain; discriminate).
  - (* SQL Server *) clear Plain. destruct acts as [|a [|a2 acts]]; [congruence| |].
    + (* one action *) inversion H as [|? ? Ha _]; subst. destruct a; cbn [render_alter] in E.
      16:{ cbn [all_add forallb andb] in E. apply bind_inv in E as (l & El & E). apply Ok_inj in E. symmetry in E.
           eapply (alter_ms_add q [k]); [exact Q|discriminate|constructor; [exact Ha|constructor]| |exact E].
           cbn [map_res] in El |- *. exact El. }
      3:{ apply bind_inv in E as (l & El & E). apply Ok_inj in E. cbn [map_res render_action bind] in El. apply Ok_inj in El. subst l.
          eapply (alter_ms_drop q [ADropDefaultColumn df n] ["DROP CONSTRAINT " +++ local_quoted df +++ ", COLUMN " +++ local_quoted n] " DROP " "");
            [exact Q|discriminate|repeat constructor|reflexivity|left; split; reflexivity|].
          rewrite <- E. reflexivity. }
      all: apply bind_inv in E as (l & El & E); apply Ok_inj in E; symmetry in E;
        eapply alter_plain; [exact Q|discriminate|constructor; [split; [exact Logic.I|exact Ha]|constructor]|reflexivity|left; reflexivity|exact El|exact E].
    + (* several *) destruct Sh as [Sh|[Sh|Sh]]; [discriminate| |].
      * assert (AA : all_add (a :: a2 :: acts) = true).
        { apply forallb_forall. intros x Hx. rewrite Forall_forall in Sh. specialize (Sh x Hx). destruct x; try destruct Sh. reflexivity. }
        assert (E' : (do l <- map_res (fun a => match a with AAddConstraint k => constr_spec k | _ => Err "" end) (a :: a2 :: acts);
          Ok ("ALTER TABLE " +++ quoted_id q +++ " ADD" +++ NL +++ join_str comma_nl (map (fun s => "CONSTRAINT " +++ s) l) +++ ";")) = Ok txt).
        { unfold render_alter in E. rewrite AA in E. destruct a; exact E. }
        clear E. rename E' into E. apply bind_inv in E as (l & El & E). apply Ok_inj in E. symmetry in E.
        destruct (all_add_spec _ AA) as (ks & Ek). rewrite (ms_add_text _ AA ks Ek) in El. rewrite Ek in *.
        eapply alter_ms_add; [exact Q|destruct ks; discriminate| |exact El|exact E].
        rewrite Forall_map in H. exact H.
      * assert (AA : all_add (a :: a2 :: acts) = false) by (inversion Sh as [|? ? Ha _]; subst; destruct a; try destruct Ha; reflexivity).
        assert (E' : (do l <- map_res (render_action DMSSQL) (a :: a2 :: acts);
          Ok ("ALTER TABLE " +++ quoted_id q +++ " DROP" +++ NL +++ join_str comma_nl (map (fun s => remove_prefix "DROP " s) l) +++ NL +++ ";")) = Ok txt).
        { unfold render_alter in E. rewrite AA in E. destruct a; exact E. }
        clear E. rename E' into E. apply bind_inv in E as (l & El & E). apply Ok_inj in E. symmetry in E.
        eapply (alter_ms_drop q (a :: a2 :: acts) l (" DROP" +++ NL) NL); [exact Q|discriminate|exact Sh|exact El|right; split; reflexivity|].
        rewrite E. now rewrite !append_assoc.
  - (* Oracle *) clear Plain. unfold render_alter in E.
    assert (E' : (do l <- map_res (render_action DOracle) acts; Ok ("ALTER TABLE " +++ quoted_id q +++ " " +++ join_str comma_nl l +++ ";")) = Ok txt)
      by exact E.
    apply bind_inv in E' as (l & El & E'). apply Ok_inj in E'.
    apply (alter_plain DOracle q acts l " "); auto. apply not_double_all; [discriminate|exact H].
Qed.
