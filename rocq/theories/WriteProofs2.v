(** Proofs for C61, part 2: columns, constraints and tables can be written. *)
From Verif Require Import PyStr QuoteModel QuoteSpec ObjectDict ObjectDictProofs Types Objects SqlAst Ddl SqlText TextSpec CatTextSpec LexProofs TextProofs1 TextProofs3 TextProofs7 PropsText Compat Convert ConvertSpec ConvertProofs
  CloseSpec CloseProofs1 CloseProofs2 CloseProofs3 CloseProofs4 CloseProofs5 CloseProofs6 CreateSpec CreateProofs1 WriteSpec WriteProofs1.
From Coq Require Import Permutation Lia.
Open Scope string_scope.
Notation C := SqlText.C.

(** ** Constants *)
Lemma consts_lex d l : forall s, Forall (scalar_ok d) l -> const_list l = Ok s ->
  exists tss, Forall2 (fun s t => lex d s = Some t) s tss /\ Forall (fun x => bal item_stop 0 x = true) tss.
Proof.
  induction l as [|v l IH]; intros s H E; cbn in E; [injection E as <-; exists []; split; constructor|].
  binds E. binds E. injection E as <-. inversion H as [|? ? H1 H2]; subst. destruct (scalar_lex d v _ H1 E0) as (ts & p & L1 & B1 & _).
  destruct (IH _ H2 E1) as (tss & F1 & F2). exists (ts :: tss). split; constructor; auto.
Qed.
Lemma tuple_lex d l s : Forall (scalar_ok d) l -> constant (PTuple l) = Ok s ->
  exists ts, lex d s = Some (C "(" :: ts ++ [C ")"])%list /\ bal no_stop 0 ts = true.
Proof.
  intros H E. change (constant (PTuple l)) with (do vs <- const_list l; Ok ("(" ++ join_str ", " vs ++ ")")) in E. binds E. injection E as <-.
  destruct (consts_lex d l _ H E0) as (tss & F1 & F2). exists (join_toks tss). split.
  - apply (app_ends d "(" _ [C "("]); [reflexivity|destruct d; reflexivity|]. apply app_lead; [|destruct d; reflexivity|reflexivity]. apply lex_join; [left; reflexivity|exact F1].
  - apply TextProofs4.bal_join_items. exact F2.
Qed.
Lemma row_expr d v s : row_ok d v -> constant v = Ok s -> expr_ok d s.
Proof.
  intros H E. destruct v as [x|b|z|l|]; try (eapply C54_constant_default; [exact H|exact E]).
  destruct H as [_ H]. destruct (tuple_lex d l s H E) as (ts & L & B). eexists. split; [exact L|]. apply (bal_inner clause_stop no_stop); [exact B|reflexivity].
Qed.
Lemma rows_condition d n vs l : Forall (row_ok d) vs -> map_res constant vs = Ok l -> cond_ok d ((local_quoted n ++ " IN (" ++ join_str ", " l ++ ")")%string).
Proof.
  intros H E.
  assert (G : exists tss, Forall2 (fun s t => lex d s = Some t) l tss /\ Forall (fun x => bal item_stop 0 x = true) tss).
  { revert l E. induction H as [|v vs Hv H IH]; intros l E; cbn [map_res] in E; [injection E as <-; exists []; split; constructor|].
    binds E. binds E. injection E as <-. destruct (IH _ E1) as (tss & F1 & F2).
    assert (X : exists ts, lex d v0 = Some ts /\ bal item_stop 0 ts = true).
    { destruct v as [x|b|z|m|]; try (destruct (scalar_lex d _ _ Hv E0) as (ts & p & L1 & B1 & _); eauto; fail).
      destruct Hv as [_ Hv]. destruct (tuple_lex d m _ Hv E0) as (ts & L & B). eexists. split; [exact L|]. now apply (bal_inner item_stop no_stop). }
    destruct X as (ts & L & B). exists (ts :: tss). split; constructor; auto. }
  destruct G as (tss & F1 & F2).
  exists (SqlText.I n :: W "IN" :: C "(" :: join_toks tss ++ [C ")"])%list. split.
  - change (SqlText.I n :: W "IN" :: C "(" :: join_toks tss ++ [C ")"])%list with ([SqlText.I n] ++ ([W "IN"; C "("] ++ (join_toks tss ++ [C ")"])))%list.
    apply app_lead; [apply lex_ident| |reflexivity].
    apply (app_ends d " IN (" _ [W "IN"; C "("]); [reflexivity|destruct d; reflexivity|].
    apply app_lead; [|destruct d; reflexivity|reflexivity]. apply lex_join; [left; reflexivity|exact F1].
  - change (bal item_stop 0 (SqlText.I n :: W "IN" :: ?x)) with (bal item_stop 0 x).
    cbn [bal is_sym item_stop andb Nat.eqb]. change (Ascii.eqb "(" ";") with false. cbv iota.
    pose proof (bal_inner item_stop no_stop (join_toks tss) []) as P. apply P; [|reflexivity]. apply TextProofs4.bal_join_items. exact F2.
Qed.

Section Write2.
Context (d : Ddl.dialect) (env : cid -> classdef) (o : copts) (refs : list cid) (fuel : nat).
Hypothesis HO : ordinary env o refs.
Hypothesis HT : ordinary_types env o refs.
Hypothesis HR : creatable env o refs.
Hypothesis HW : writable d env o refs.
Local Notation wty := (wty d).
Let HC : complete env refs := complete_classes env o refs HT.

Lemma label_row e : label_ok d e -> constant (ev_value e) <> Err "NotImplementedError" -> row_ok d (ev_value e).
Proof. intros [A B] N. destruct e; simpl in *; auto. Qed.
Lemma label_row' e : label_ok d e -> (forall a b, e <> EOther a b) -> row_ok d (ev_value e).
Proof. intros [A B] N. destruct e; simpl in *; auto. now destruct (N ty text). Qed.
Lemma value_type_all vs vt e : enum_value_type vs = Ok vt -> In e vs -> ev_type e = vt.
Proof.
  unfold enum_value_type. intros H I. destruct (nodup vtype_eq_dec (map ev_type vs)) as [|x [|y l]] eqn:NV; try discriminate. injection H as ->.
  assert (J : In (ev_type e) (nodup vtype_eq_dec (map ev_type vs))) by (apply nodup_In, in_map, I). rewrite NV in J. destruct J as [<-|[]]. reflexivity.
Qed.
Lemma mentions_ann t ms c : mentions t c -> mentions (mk_ann t ms) c.
Proof. intros M. unfold mk_ann. destruct ms; [exact M|]. destruct t; try (now constructor). inversion M; subst. now constructor. Qed.
Lemma auto_known t u c : (forall x, mentions t x -> In x refs) -> auto_type env t = Ok (Some u) -> mentions u c -> In c refs.
Proof.
  intros G H M. assert (K : forall e k, In e refs -> key_type_of env e = Ok k -> mentions k c -> In c refs).
  { intros e k Ie Ek Mk. apply (key_good env o refs HT e k Ie Ek). exact Mk. }
  unfold auto_type in H. destruct (entity_of env t) as [e|] eqn:En.
  { binds H. injection H as <-. eapply K; [|eassumption|exact M]. apply G. now apply (entity_mentions env). }
  destruct (is_union t) eqn:Un.
  - assert (Gm : forall x, In x (map evaluate (union_members t)) -> forall y, mentions x y -> In y refs).
    { intros x I y My. apply in_map_iff in I as (z & <- & Iz). apply G. apply (mentions_members env _ z _ Iz). now apply mentions_evaluate. }
    destruct (forallb (is_entity env) _) eqn:Fa.
    + destruct (map evaluate (union_members t)) as [|m l]; [discriminate|]. destruct (entity_of env m) as [e|] eqn:Em; [|discriminate]. binds H. injection H as <-.
      eapply K; [|eassumption|exact M]. apply (Gm m (or_introl eq_refl)). now apply (entity_mentions env).
    + injection H as H. apply find_some in H as [I _]. eapply Gm; eauto.
  - destruct (_ || _ || _)%bool; [discriminate|]. injection H as <-. now apply G.
Qed.
Lemma auto_expr t s : (forall x, mentions t x -> In x refs) -> auto_text env t = Ok s -> expr_ok d s.
Proof.
  intros G H. unfold auto_text in H.
  assert (L : forall x, text_ok d x -> expr_ok d (quote x)) by (intros x T; apply (C54_constant_default d (PStr x)); [exact T|reflexivity]).
  assert (Z0 : expr_ok d "0") by (apply (C54_constant_default d (PInt 0)); [exact Logic.I|reflexivity]).
  assert (T0 : expr_ok d "''") by (apply (L ""); destruct d; vm_compute; auto).
  assert (B0 : expr_ok d "FALSE") by (apply (C54_constant_default d (PBool false)); [exact Logic.I|reflexivity]).
  assert (F0 : expr_ok d "0.0") by (eexists; split; [destruct d; vm_compute; reflexivity|reflexivity]).
  assert (D0 : expr_ok d "'0001-01-01 00:00:00'") by (apply (L "0001-01-01 00:00:00"); destruct d; vm_compute; auto).
  assert (K : forall u, (forall x, mentions u x -> In x refs) ->
    match unwrap u with
    | YCls c => match env c with KEnum (e :: _) => constant (ev_value e) | KEnum [] => Err "StopIteration" | _ => Err "TypeError" end
    | YInt => Ok "0" | YStr => Ok "''" | YBool => Ok "FALSE" | YFloat => Ok "0.0" | YDecimal => Ok "0"
    | YTimedelta => Err "NotImplementedError" | _ => Err "TypeError" end = Ok s -> expr_ok d s).
  { clear H. intros u Gu H. destruct (unwrap u) eqn:U; try discriminate; try (injection H as <-; assumption).
    destruct (env c) as [|[|e l]|] eqn:Kc; try discriminate.
    assert (Ic : In c refs) by (apply Gu; apply mentions_unwrap; rewrite U; constructor).
    eapply row_expr; [|exact H]. apply label_row; [|congruence]. eapply (wr_labels _ _ _ _ HW); eauto. now left. }
  destruct t; try discriminate; try (injection H as <-; assumption); (eapply K; [exact G|exact H]).
Qed.
Definition params_ok (ps : list (string * string)) : Prop := d = DMySQL -> forall n x, In (n, x) ps -> text_ok d (first_line x).
Lemma column_text n ps f c : relevant env refs f -> params_ok ps -> member_column env o n ps f = Ok c -> col_text d c.
Proof.
  intros R P H. pose proof (good_relevant env o refs HT f R) as G. unfold member_column in H. binds H. binds H. injection H as <-.
  destruct (member_wty d env o refs HT HW n _ _ G E) as [A B]. split; [exact A|]. cbn [c_type c_default c_desc]. split; [|split; [exact B|]].
  - intros e ->. pose proof (wr_defaults _ _ _ _ HW f R) as Df.
    assert (Au : (if o_auto o && negb (p_nullable (field_properties (f_type f))) && negb (p_primary (field_properties (f_type f))) && negb (p_identity (field_properties (f_type f)))
       then do u <- auto_type env (p_plain (field_properties (f_type f)));
            match u with Some u => do s <- auto_text env u; Ok (Some s) | None => Ok None end else Ok None) = Ok (Some e) -> expr_ok d e).
    { destruct (_ && _ && _ && _)%bool; [|discriminate]. intros X. binds X. destruct v0 as [u|]; [|discriminate]. binds X. injection X as <-.
      eapply auto_expr; [|eassumption]. intros x M. eapply auto_known; [|eassumption|exact M]. intros y My. apply G. unfold field_type. now apply mentions_ann. }
    destruct (f_default f) as [| |w|w]; cbn [default_ok default_text] in *; auto.
    + binds E0. injection E0 as <-. eapply C54_constant_default; eauto.
    + injection E0 as <-. exact Df.
  - intros M x X. destruct (find _ ps) as [[k s]|] eqn:F; [|discriminate]. injection X as <-. apply find_some in F as [I _]. exact (P M k s I).
Qed.
Lemma plain_text n s i : wty s -> col_text d (Col n s false None i None).
Proof. intros [A B]. split; [exact A|]. cbn. split; [discriminate|]. split; [exact B|discriminate]. Qed.

Definition keyed (k : constr) : Prop := is_alter k = true -> constr_ok d k.
Lemma foreign_keyed n c q r : class_qid o r = Ok q -> forall k, keyed (CForeign n [c] q [k]).
Proof. intros H k _. split; [discriminate|]. split; [eapply class_qid_ok; eauto|discriminate]. Qed.
Lemma reference_keyed c f l : In f (data_fields env c) -> field_reference env o c f = Ok l -> forall k, In k l -> keyed k.
Proof.
  intros If H k I. unfold field_reference in H. binds H. binds H. injection H as <-. apply in_app_iff in I as [I|I].
  - destruct (entity_of env (required_type f)) as [r|]; [|injection E as <-; destruct I]. binds E. binds E. injection E as <-. destruct I as [<-|[]].
    unfold reference_to in E2. binds E2. binds E2. injection E2 as <-. eapply foreign_keyed; eassumption.
  - destruct (is_union _); [|injection E0 as <-; destruct I]. destruct (forallb _ _); [|injection E0 as <-; destruct I]. binds E0. binds E0. injection E0 as <-.
    destruct I as [<-|[]]. intros A. discriminate.
Qed.
Lemma enum_ref_keyed c f e k : enum_reference o c f e = Ok k -> keyed k.
Proof. unfold enum_reference. intros H. binds H. binds H. injection H as <-. eapply foreign_keyed; eassumption. Qed.
Lemma keys_keyed c cols ks : In c refs -> table_keys env o c cols = Ok ks -> forall k, In k ks -> keyed k.
Proof.
  intros Ic H k I. unfold table_keys in H. binds H. binds H. binds H. binds H. binds H. injection H as <-. repeat (apply in_app_iff in I as [I|I]).
  - destruct (o_foreign o) eqn:OF; [|injection E as <-; destruct I]. unfold class_constraints in E. binds E. rewrite OF in E. binds E. injection E as <-. apply in_app_iff in I as [I|I].
    + unfold unique_constraints in E4. binds E4. injection E4 as <-. match goal with X : map_res _ (fields_of _ _) = Ok _ |- _ => destruct (in_concat_ok _ _ _ _ X I) as (f & r & If & Ef & Ir) end.
      destruct (p_unique _); [|injection Ef as <-; destruct Ir]. binds Ef. injection Ef as <-. destruct Ir as [<-|[]]. intros _. simpl. discriminate.
    + binds E5. injection E5 as <-. match goal with X : map_res _ (fields_of _ _) = Ok _ |- _ => destruct (in_concat_ok _ _ _ _ X I) as (f & r & If & Ef & Ir) end. eapply reference_keyed; eauto.
  - unfold extensible_constraints in E0. apply map_res_all2 in E0. destruct (all2_in_r _ _ _ _ E0 I) as (f & If & Ef). binds Ef. eapply enum_ref_keyed; eassumption.
  - destruct (o_enum o); try (injection E1 as <-; destruct I). unfold enum_constraints in E1. apply map_res_all2 in E1. destruct (all2_in_r _ _ _ _ E1 I) as (f & If & Ef).
    binds Ef. eapply enum_ref_keyed; eassumption.
  - destruct (o_enum o); try (injection E2 as <-; destruct I). destruct (o_check o); [|injection E2 as <-; destruct I].
    unfold enum_checks in E2. apply map_res_all2 in E2. destruct (all2_in_r _ _ _ _ E2 I) as (f & If & Ef). binds Ef. binds Ef. injection Ef as <-. intros _. simpl.
    unfold enum_fields in If. apply filter_In in If as [If Xf]. destruct (is_type_enum_inv env _ Xf) as (e & Ue & Ee).
    apply (rows_condition d (f_name f) (map ev_value (enum_values env (required_type f)))).
    + apply Forall_forall. intros x X. apply in_map_iff in X as (w & <- & Iw). unfold enum_values in *. rewrite Ue in *. destruct (env e) as [|vs|] eqn:Ke; try destruct Iw.
      apply label_row.
      * eapply (wr_labels _ _ _ _ HW e vs); auto. apply (HC c f e Ic If). apply (required_mentions env). apply mentions_unwrap. rewrite Ue. constructor.
      * intros Z. apply map_res_all2 in E4. clear - E4 Iw Z. induction E4 as [|a b l r Hab _ IH]; [destruct Iw|]. destruct Iw as [->|Iw]; [congruence|auto].
    + clear - E4. revert v4 E4. induction (enum_values env (required_type f)) as [|e l IH]; simpl; intros r H; [exact H|]. destruct (constant (ev_value e)); [|discriminate]. simpl in *. binds H. rewrite (IH _ E). exact H.
  - unfold column_checks in E3. binds E3. injection E3 as <-. destruct (in_concat_ok _ _ _ _ E4 I) as (col & r & If & Ef & Ir).
    destruct (check_condition col) as [s|] eqn:CC; [|injection Ef as <-; destruct Ir]. binds Ef. injection Ef as <-. destruct Ir as [<-|[]]. intros _. simpl.
    unfold check_condition in CC. destruct (base_type (c_type col)); try discriminate. cbv zeta in CC.
    pose proof (C54_range_condition d (c_name col) mn mx _ eq_refl) as X. destruct (_ ++ _)%list; [discriminate|]. injection CC as <-. exact X.
Qed.

Lemma data_doc c : In c refs \/ value_class env refs c -> params_ok (params_of env c) /\ (d = DMySQL -> forall x, doc_of env c = Some x -> text_ok d (first_line x)).
Proof.
  intros I. pose proof (wr_docs _ _ _ _ HW c I) as D. unfold params_ok, params_of, doc_of. unfold described in D. destruct (env c); [|split; [intros _ n x []|discriminate]|split; [intros _ n x []|discriminate]].
  split; intros M; now apply D.
Qed.
Lemma class_table_text c t : In c refs -> dataclass_to_table env o fuel c = Ok t -> table_text d t.
Proof.
  intros Ic H. apply table_inv in H as (cols & ks & tq & k & H1 & H2 & H3 & H4 & ->). destruct (data_doc c (or_introl Ic)) as [P1 P2].
  split; [eapply class_qid_ok; eassumption|]. cbn [t_pk make_table t_columns t_constraints t_desc t_enum]. split; [discriminate|]. split; [|split; [|split; [exact P2|discriminate]]].
  - intros col I. apply make_in in I. unfold table_columns in H1. apply map_res_all2 in H1. destruct (all2_in_r _ _ _ _ H1 I) as (f & If & Ef). unfold column_fields in If.
    apply filter_In in If as [If _]. eapply column_text; eauto. econstructor; eauto.
  - intros x I. apply make_in in I. eapply keys_keyed; eauto.
Qed.
Lemma label_type_wty s : member_sql env o fuel label_type = Ok s -> wty s.
Proof.
  intros H. eapply member_wty; [exact HT|exact HW| |exact H]. apply good_leaf; intros x M; inversion M; subst; match goal with X : _ YStr _ |- _ => inversion X end.
Qed.
Lemma enum_table_text e t : In e refs -> enum_table env o fuel e = Ok t -> table_text d t.
Proof.
  intros Ie H. unfold enum_table in H. binds H. binds H. destruct (env e) as [|vs|] eqn:K; try discriminate. binds H. binds H. injection H as <-.
  split; [eapply class_qid_ok; eassumption|]. cbn [t_pk make_table t_columns t_constraints t_desc t_enum]. split; [discriminate|].
  assert (V : forall c, v1 = VtCls c -> value_class env refs c).
  { intros c ->. unfold enum_value_type in E1. destruct (nodup vtype_eq_dec (map ev_type vs)) as [|x [|y l]] eqn:NV; try discriminate.
    injection E1 as ->. assert (J : In (VtCls c) (map ev_type vs)) by (apply (nodup_In vtype_eq_dec); rewrite NV; now left).
    apply in_map_iff in J as (w & W & Iw). destruct w; simpl in W; try discriminate. injection W as ->. exists e, vs. eauto. }
  assert (REL : forall c f, value_class env refs c -> In f (data_fields env c) -> relevant env refs f).
  { intros c f (e' & vs' & x & s & A & B & X) If. eapply rl_value; eauto. }
  assert (P : (forall col, In col (fst v2) -> col_text d col) /\ (forall k, In k (snd v2) -> keyed k) /\ exists col, In col (od_make c_name (Col "id" v0 false None true None :: fst v2)) /\ c_name col <> "id" /\ c_identity col = false).
  { destruct v1; try discriminate.
    - binds E2. injection E2 as <-. split; [intros col [<-|[]]; apply plain_text; now apply label_type_wty|]. split; [intros k [<-|[]] _; simpl; discriminate|].
      exists (Col "value" v1 false None false None). split; [|split; [discriminate|reflexivity]]. vm_compute. auto.
    - binds E2. injection E2 as <-. split; [intros col [<-|[]]; apply plain_text; now apply label_type_wty|]. split; [intros k [<-|[]] _; simpl; discriminate|].
      exists (Col "value" v1 false None false None). split; [|split; [discriminate|reflexivity]]. vm_compute. auto.
    - destruct (env c) as [fs a x ps| |] eqn:KC; try discriminate. binds E2. injection E2 as <-. cbn [fst snd]. pose proof (V c eq_refl) as VC.
      destruct (data_doc c (or_intror VC)) as [P1 _]. split; [|split; [intros k []|]].
      + intros col I. apply map_res_all2 in E3. destruct (all2_in_r _ _ _ _ E3 I) as (f & If & Ef). eapply column_text; eauto.
      + destruct (wr_values _ _ _ _ HW c VC) as (NE & Nf). assert (If : exists f, In f (data_fields env c)) by (destruct (data_fields env c) as [|f l]; [congruence|exists f; now left]). destruct If as (f & If). pose proof (names_of _ _ _ _ _ _ E3) as NM.
        assert (NI : ~ In "id" (map f_name (data_fields env c))) by (destruct VC as (e' & vs' & y & s & A & B & X); eapply (ord_values _ _ _ HO); eauto).
        apply map_res_all2 in E3. destruct (all2_in_l _ _ _ _ E3 If) as (col & Icol & Ef).
        destruct (make_key c_name (Col "id" v0 false None true None :: v1) col (or_intror Icol)) as (col' & I' & I2 & K').
        exists col'. split; [exact I'|]. pose proof (column_name_type env o _ _ _ _ Ef) as [Nc _].
        assert (N1 : c_name col' <> "id") by (rewrite K', Nc; intros X; apply NI; rewrite <- X; now apply in_map). split; [exact N1|].
        destruct I2 as [<-|I2]; [now destruct N1|]. destruct (all2_in_r _ _ _ _ E3 I2) as (f' & If' & Ef').
        apply (column_inv env o fuel) in Ef' as (_ & -> & _). apply Bool.not_true_is_false. intros X. apply (Nf f' If'). now apply (identity_tagged env). }
  destruct P as (P1 & P2 & P3). split; [|split; [|split; [discriminate|]]].
  - intros col I. apply make_in in I. destruct I as [<-|I]; [|now apply P1]. apply plain_text. eapply scalar_wty; [exact HW|exact E0].
  - intros k I. apply make_in in I. now apply P2.
  - intros ws Ws. destruct (o_init o); [|discriminate]. injection Ws as <-. pose proof (value_type_some _ _ E1) as NE. split; [destruct vs; [congruence|discriminate]|]. split.
    + apply Forall_forall. intros x X. apply in_map_iff in X as (w & <- & Iw). apply label_row'; [eapply (wr_labels _ _ _ _ HW); eauto|].
      intros a b ->. pose proof (value_type_all _ _ _ E1 Iw) as X. simpl in X. subst v1. discriminate.
    + destruct P3 as (col & I1 & I2 & I3). exists col. split; [exact I1|]. split; [|exact I3]. intros [X|[]]. now apply I2.
Qed.
Lemma join_table_text c f l m t : In c refs -> In f (data_fields env c) -> join_table env o fuel c f = Ok l -> In (m, t) l -> table_text d t.
Proof.
  intros Ic If H I. unfold join_table in H. destruct (relationship env o (f_type f)) as [[b item]|] eqn:R; [|injection H as <-; destruct I].
  binds H. binds H. destruct v0 as [[r rk] rs]. binds H. binds H. binds H. binds H. binds H. binds H. binds H. injection H as <-.
  destruct I as [I|[]]. injection I as <- <-. split; [eapply qid_of_ok; eassumption|]. cbn [t_pk make_table t_columns t_constraints t_desc t_enum]. split; [discriminate|].
  split; [|split; [|split; discriminate]].
  - intros col I. apply make_in in I. destruct I as [<-|[<-|[<-|[]]]]; apply plain_text.
    + eapply member_wty; [exact HT|exact HW| |eassumption]. apply good_leaf; intros x M; inversion M.
    + eapply member_wty; [exact HT|exact HW| |eassumption]. eapply key_good; [exact HT|exact Ic|eassumption].
    + destruct (entity_of env item) as [x|] eqn:En.
      * binds E0. binds E0. binds E0. injection E0 as <- <- <-. eapply member_wty; [exact HT|exact HW| |eassumption]. eapply key_good; [exact HT| |eassumption].
        apply (HC c f x Ic If). apply (mentions_relationship env o _ _ _ _ R). now apply (entity_mentions env).
      * destruct (o_enum o) eqn:OE; try discriminate. destruct (unwrap item) eqn:Ui; try discriminate.
        destruct (is_enum_cls env c0) eqn:Ee; [|discriminate]. binds E0. injection E0 as <- <- <-. eapply scalar_wty; [exact HW|eassumption].
  - intros k I. apply make_in in I. destruct I as [<-|[<-|I]]; [eapply foreign_keyed; eassumption|eapply foreign_keyed; eassumption|].
    destruct b; [|destruct I]. destruct I as [<-|[]]. intros _. simpl. discriminate.
Qed.
Lemma tables_text ts m t : all_tables env o fuel refs = Ok ts -> In (m, t) ts -> table_text d t.
Proof.
  intros H I. unfold all_tables in H. binds H. binds H. binds H. binds H. binds H. injection H as H'. rewrite <- H' in I.
  repeat (apply in_app_iff in I as [I|I]).
  - unfold entity_tables in E. apply map_res_all2 in E. destruct (all2_in_r _ _ _ _ E I) as (c & Ic & Ec). binds Ec. injection Ec as <- <-.
    apply tys_in in Ic as [Ic _]. eapply class_table_text; eauto.
  - destruct (enum_tables_in env o fuel _ _ _ _ E0 I) as (e & Ie & -> & Ee). eapply enum_table_text; eauto.
    eapply (es_refs env o refs HC v1 E1). apply in_app_iff. eauto.
  - destruct (enum_tables_in env o fuel _ _ _ _ E2 I) as (e & Ie & -> & Ee). eapply enum_table_text; eauto.
    eapply (es_refs env o refs HC v1 E1). apply in_app_iff. eauto.
  - unfold join_tables in E3. binds E3. injection E3 as <-. destruct (in_concat_ok _ _ _ _ E4 I) as (c & r & Ic & Er & Ir). binds Er. injection Er as <-.
    destruct (in_concat_ok _ _ _ _ E3 Ir) as (f & r' & If & Ef & Ir'). apply tys_in in Ic as [Ic _]. eapply join_table_text; eauto.
Qed.
End Write2.
