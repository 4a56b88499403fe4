(** Proofs for C28: the substitution succeeds. *)
From Verif Require Import PyStr QuoteModel ObjectDict ObjectDictProofs Types Objects SqlAst Ddl Render Dml RowSpec DmlSpec TablePredProofs
  DmlProofs Records RecordsSpec RecordsProofs RecordsProofs2 RecordsProofs3.
From Coq Require Import Lia Arith Permutation.
Open Scope list_scope.

Lemma map_res_total {A B} (f : A -> res B) l : (forall a, In a l -> exists b, f a = Ok b) -> exists out, map_res f l = Ok out.
Proof.
  induction l as [|a l IH]; intros H; [eexists; reflexivity|]. destruct (H a (or_introl eq_refl)) as (b & E). destruct IH as (out & E2); [intros; apply H; now right|].
  exists (b :: out). cbn [map_res]. rewrite E. cbn [bind]. rewrite E2. reflexivity.
Qed.

Section G.
  Context (d : dialect) (state : catalog) (vt : column -> ftype -> option fn).
  Context (set_order : list pv -> list pv) (fill : qid -> list prow -> string -> option pv).
  Context (SO : forall l x, In x (set_order l) <-> In x l) (Hs : sound_tables state) (Hf : filed state).
  Context (t : table) (Ht : cat_get_table state (t_name t) = Ok t).
  Notation gt := (fun (x : nat * ftype * string) tr => get_transformer state vt t (fst (fst x)) (snd (fst x)) (snd x) = Ok tr).

  Lemma get_transformer_total i ty n : resolved state t -> In n (map c_name (t_columns t)) -> exists tr, get_transformer state vt t i ty n = Ok tr.
  Proof.
    intros R I. unfold get_transformer. destruct (od_get c_name n (t_columns t)) as [c|] eqn:E.
    2: { apply get_none in E. contradiction. }
    destruct (is_relation t (c_name c)) eqn:IR; cbn [negb]; [|eauto].
    unfold get_referenced_table. rewrite Ht. cbn [bind]. destruct (get_constraint t (c_name c)) as [rf|e] eqn:G.
    2: { assert (X : is_ok (get_constraint t (c_name c)) = false) by (rewrite G; reflexivity). apply get_constraint_err in X. congruence. }
    pose proof (proj1 (get_constraint_ok _ _ _) G) as (l1 & m & l2 & C & _). cbn [bind].
    destruct (R m (c_name c) (fst rf) (snd rf)) as (rel & -> & K); [rewrite C; apply in_or_app; right; now left|]. cbn [bind].
    destruct (is_lookup_table rel) as [b|e] eqn:B.
    2: { assert (X : is_ok (is_lookup_table rel) = false) by (rewrite B; reflexivity). apply is_lookup_table_err in X. destruct X as [L N]. destruct (K L) as [k0 K0]. destruct (N _ K0). }
    cbn [bind]. destruct b; cbn [negb]; [|eauto]. destruct ty; eauto.
  Qed.
  Lemma plan_total types : forall names i, resolved state t -> (forall n, In n names -> n <> ""%string -> In n (map c_name (t_columns t))) ->
    exists p, plan state vt t i types names = Ok p.
  Proof.
    induction types as [|ty types IH]; intros [|n names] i R K; cbn [plan]; eauto.
    destruct (IH names (S i) R) as (p & E); [intros m I; apply K; now right|].
    destruct (omitted ty n) eqn:O; [eauto|]. destruct (get_transformer_total i ty n R) as (tr & ->).
    - apply K; [now left|]. intros ->. destruct ty; discriminate O.
    - cbn [bind]. rewrite E. cbn [bind]. eauto.
  Qed.

  Lemma column_values_total batch i : (forall r, In r batch -> exists f : field, nth_error r i = Some f /\ forall x, f = Some x -> exists s, x = PVStr s) ->
    exists vs, column_values batch i = Ok vs.
  Proof.
    induction batch as [|r batch IH]; intros H; cbn [column_values]; [eauto|]. destruct IH as (vs & E); [intros; apply H; now right|].
    destruct (H r (or_introl eq_refl)) as (f & -> & F). destruct f as [x|]; [|eauto]. destruct (F x eq_refl) as (s & ->). rewrite E. cbn [bind]. eauto.
  Qed.
  Lemma list_values_total batch i : (forall r, In r batch -> exists ls, nth_error r i = Some (Some (PVLabels ls) : field)) ->
    exists vs, list_values batch i = Ok vs.
  Proof.
    induction batch as [|r batch IH]; intros H; cbn [list_values]; [eauto|]. destruct IH as (vs & E); [intros; apply H; now right|].
    destruct (H r (or_introl eq_refl)) as (ls & ->). rewrite E. cbn [bind]. eauto.
  Qed.

  (** what a field at position [fst (fst x)] must be *)
  Definition field_at (names : list string) (types : list ftype) (r : record) (x : nat * ftype * string) : Prop :=
    exists f, nth_error r (fst (fst x)) = Some f /\ acceptable state vt t (snd x, snd (fst x), f).
  Definition live_all (S : store) : Prop := forall n ty rel k v, substituted state t n ty rel k v -> live_lookup state fill S rel k v.
  Definition converts (batch : list record) (i : nat) (f : option fn) : Prop := forall r x, In r batch -> nth_error r i = Some x -> exists y, apply_fn f x = Ok y.

  Lemma live_grown S S' tr f batch : catalogued state tr -> get_fn d set_order fill tr S batch = Ok (S', f) -> live_all S -> live_all S'.
  Proof.
    intros C E L n ty rel k v SB. destruct (L n ty rel k v SB) as (A & B & F & R). split; [exact A|]. split; [exact B|]. split; [exact F|].
    exact (grown_rows _ _ _ _ _ _ (get_fn_grown d state vt set_order fill SO Hs Hf rel k v A B F tr S batch S' f C R E)).
  Qed.
  Lemma get_fn_total names types tr S batch x : gt x tr -> live_all S -> (forall r, In r batch -> field_at names types r x) ->
    exists S' f, get_fn d set_order fill tr S batch = Ok (S', f) /\ converts batch (fst (fst x)) f.
  Proof.
    destruct x as [[i ty] n]. cbn [fst snd]. intros G L A. destruct (get_transformer_cases state vt Hs t Ht _ _ _ _ G) as (c & Ic & Ec & [[NS ->]|(rel & k & v & SB & K)]).
    - cbn [get_fn]. exists S, (vt c ty). split; [reflexivity|]. intros r x Ir E. destruct (A r Ir) as (f & E2 & AC). cbn in E2, AC. rewrite E in E2. injection E2 as <-.
      unfold apply_fn. destruct (vt c ty) as [g|] eqn:V; [|eauto]. destruct x as [y|]; [|eauto].
      destruct AC as [[(rel & k & v & SB) _]|[_ H]]; [destruct (NS _ _ _ SB)|]. exact (H c g Ic Ec V).
    - destruct (L _ _ _ _ _ SB) as (LO & GK & FK & R). destruct K as [[-> ->]|[-> ->]]; cbn [get_fn].
      + destruct (column_values_total batch i) as (vs & CV).
        { intros r Ir. destruct (A r Ir) as (f & E & AC). cbn in E, AC. exists f. split; [exact E|]. intros x ->.
          destruct AC as [[_ [[_ H]|[H _]]]|[NS _]]; [exact H|discriminate H|destruct (NS _ _ _ SB)]. }
        rewrite CV. cbn [bind].
        destruct (merge_lookup_live d state vt fill Hs rel k v LO GK FK S (as_set set_order vs) R) as (S' & dc & M & _ & DG). rewrite M. cbn [bind fst snd].
        do 2 eexists. split; [reflexivity|]. intros r x Ir E. destruct x as [x|]; cbn [apply_fn]; [|eauto]. unfold enum_fn.
        destruct (DG x) as (z & ->); [|eauto]. apply (as_set_in set_order SO). apply (column_values_in _ _ _ x CV). eauto.
      + destruct (list_values_total batch i) as (vs & CV).
        { intros r Ir. destruct (A r Ir) as (f & E & AC). cbn in E, AC. destruct f as [y|]; [|destruct (AC eq_refl _ _ _ SB)].
          destruct AC as [[_ [[H _]|[_ (ls & ->)]]]|[NS _]]; [discriminate H|eauto|destruct (NS _ _ _ SB)]. }
        rewrite CV. cbn [bind].
        destruct (merge_lookup_live d state vt fill Hs rel k v LO GK FK S (as_set set_order vs) R) as (S' & dc & M & _ & DG). rewrite M. cbn [bind fst snd].
        do 2 eexists. split; [reflexivity|]. intros r x Ir E. destruct (A r Ir) as (f & E2 & AC). cbn in E2, AC. rewrite E in E2. injection E2 as <-.
        destruct x as [x|]; cbn [apply_fn]; [|eauto].
        destruct AC as [[_ [[H _]|[_ (ls & ->)]]]|[NS _]]; [discriminate H| |destruct (NS _ _ _ SB)].
        unfold enum_list_fn. destruct (map_res_total (label_key dc) (map Some ls)) as (ks & ->); [|cbn [bind]; eauto].
        intros l I. apply in_map_iff in I. destruct I as (s & <- & Is). unfold label_key. destruct (DG (PVStr s)) as (z & ->); [|eauto].
        apply (as_set_in set_order SO). apply (list_values_in _ _ _ _ CV). exists r, (map Some ls), s. split; [exact Ir|]. split; [exact E|]. split; [apply in_map; exact Is|reflexivity].
  Qed.
  Lemma get_fns_total names types l trs : Forall2 gt l trs -> forall S batch, live_all S -> (forall r x, In r batch -> In x l -> field_at names types r x) ->
    exists S' fs, get_fns d set_order fill trs S batch = Ok (S', fs) /\ live_all S' /\ Forall2 (fun x f => converts batch (fst (fst x)) f) l fs.
  Proof.
    intros F. induction F as [|x tr l trs G F IH]; intros S batch L A; cbn [get_fns].
    - exists S, []. split; [reflexivity|]. split; [exact L|constructor].
    - destruct (get_fn_total names types tr S batch x G L (fun r I => A r x I (or_introl eq_refl))) as (S1 & f & E & Cv). rewrite E. cbn [bind fst snd].
      assert (C : catalogued state tr). { pose proof (trs_catalogued state vt Hs t Ht [x] [tr]) as X. specialize (X (Forall2_cons _ _ G (Forall2_nil _))). inversion X. assumption. }
      pose proof (live_grown _ _ _ _ _ C E L) as L1. destruct (IH S1 batch L1 (fun r y I J => A r y I (or_intror J))) as (S2 & fs & E2 & L2 & F2).
      rewrite E2. cbn [bind fst snd]. exists S2, (f :: fs). split; [reflexivity|]. split; [exact L2|]. constructor; assumption.
  Qed.

  Lemma select_convert_total batch (r : record) l fs : Forall2 (fun (x : nat * ftype * string) f => converts batch (fst (fst x)) f) l fs -> In r batch ->
    (forall x, In x l -> exists f, nth_error r (fst (fst x)) = Some f) ->
    exists o, select_convert (map (fun x => fst (fst x)) l) fs r = Ok o.
  Proof.
    unfold select_convert, select. intros F I. induction F as [|x f l fs C F IH]; intros A; [eexists; reflexivity|].
    destruct IH as (o & E); [intros; apply A; now right|]. cbn [map map_res]. destruct (A x (or_introl eq_refl)) as (y & Y). rewrite Y. cbn [bind].
    destruct (map_res _ (map _ l)) as [xs|]; cbn [bind] in *; [|discriminate]. cbn [convert]. destruct (C r y I Y) as (z & ->). cbn [bind]. rewrite E. cbn [bind]. eauto.
  Qed.
  Lemma one_batch_total types names src idx trs S batch S' fs out :
    generate_records state vt t types (Some names) = Ok src -> plan state vt t 0 types names = Ok (idx, trs) ->
    (forall r, In r batch -> length r = length types) ->
    get_fns d set_order fill trs S batch = Ok (S', fs) -> map_res (select_convert idx fs) batch = Ok out ->
    exists out', one_batch d set_order fill src S batch = Ok (S', out').
  Proof.
    intros G P W GF M. unfold generate_records in G. rewrite P in G. cbn [bind] in G. destruct (plan_items state vt t _ _ _ _ _ P) as [EI F2].
    destruct trs as [|tr trs].
    - injection GF as <- <-. assert (idx = []) by (destruct (items 0 types names); [exact EI|inversion F2]). subst idx.
      destruct (Nat.eqb _ _); injection G as <-; cbn [one_batch]; [eauto|]. rewrite H in *.
      destruct (map_res_total (select []) batch) as (o & E); [intros r _; exists []; reflexivity|]. rewrite E. cbn [bind]. eauto.
    - remember (tr :: trs) as T eqn:ET.
      assert (G' : Ok (if Nat.eqb (length idx) (length types) then SrcTransform T else SrcBoth idx T) = Ok src).
      { rewrite <- G. subst T. destruct (Nat.eqb (length idx) (length types)); reflexivity. }
      clear G. destruct (Nat.eqb (length idx) (length types)) eqn:E; injection G' as <-; cbn [one_batch]; rewrite GF; cbn [bind fst snd].
      + assert (X : map_res (convert fs) batch = map_res (select_convert idx fs) batch); [|rewrite X, M; cbn [bind]; eauto].
        apply Nat.eqb_eq in E. clear - W E EI. induction batch as [|r b IH]; [reflexivity|]. cbn [map_res]. rewrite IH by (intros; apply W; now right).
        replace (select_convert idx fs r) with (convert fs r); [reflexivity|]. unfold select_convert. rewrite EI.
        pose proof (select_all types names 0 [] r) as SA. cbn [app] in SA.
        rewrite SA; [reflexivity| |apply W; now left|reflexivity]. rewrite EI, map_length in E. exact E.
      + rewrite M. cbn [bind]. eauto.
  Qed.

  Lemma all_total types names : length names = length types -> skipped_unnamed types names -> resolved state t ->
    (forall n, In n names -> n <> ""%string -> In n (map c_name (t_columns t))) ->
    forall bs S, live_all S -> (forall b r, In b bs -> In r b -> length r = length types) ->
    (forall b r x, In b bs -> In r b -> In x (named_fields names types r) -> acceptable state vt t x) ->
    exists S' outs, bound_records d state vt set_order fill t types (Some names) S bs = Ok (S', outs) /\ live_all S'.
  Proof.
    intros LN SK R K bs S0 L0 W A. destruct (plan_total types names 0 R K) as ([idx trs] & P).
    assert (G : exists src, generate_records state vt t types (Some names) = Ok src) by (unfold generate_records; rewrite P; cbn [bind]; eauto).
    destruct G as (src & G). unfold bound_records. rewrite G. cbn [bind]. destruct (plan_items state vt t _ _ _ _ _ P) as [EI F1].
    revert S0 L0 W A. induction bs as [|b bs IH]; intros S L W A; cbn [all_batches]; [eauto|].
    assert (FA : forall r x, In r b -> In x (items 0 types names) -> field_at names types r x).
    { intros r [[j ty] n] Ir Ix. unfold field_at. cbn [fst snd]. pose proof (W b r (or_introl eq_refl) Ir) as LR.
      assert (X : exists f, nth_error r j = Some f).
      { destruct (nth_error r j) eqn:E; [eauto|]. exfalso. apply nth_error_None in E.
        assert (B : forall types names i, In (j, ty, n) (items i types names) -> j < i + length types).
        { clear. induction types as [|t0 types IH]; intros [|n0 names] i; cbn [items]; try (intros []).
          intros H. apply in_app_or in H. destruct H as [H|H].
          - destruct (omitted t0 n0); [destruct H|]. destruct H as [[= <- <- <-]|[]]. simpl. lia.
          - apply IH in H. simpl. lia. }
        apply B in Ix. rewrite LR in E. lia. }
      destruct X as (f & E). exists f. split; [exact E|]. apply (A b r _ (or_introl eq_refl) Ir).
      apply (items_named types names 0 [] r n ty f SK eq_refl LR LN). exists j. auto. }
    destruct (get_fns_total names types _ _ F1 S b L FA) as (S1 & fs & GF & L1 & F2).
    destruct (map_res_total (select_convert idx fs) b) as (out & M).
    { intros r Ir. rewrite EI. apply (select_convert_total b r _ fs F2 Ir). intros x Ix. destruct (FA r x Ir Ix) as (f & E & _). eauto. }
    destruct (one_batch_total types names src idx trs S b S1 fs out G P (fun r => W b r (or_introl eq_refl)) GF M) as (out' & ->). cbn [bind fst snd].
    destruct (IH S1 L1 (fun b r I => W b r (or_intror I)) (fun b r x I => A b r x (or_intror I))) as (S2 & outs & -> & L2). cbn [bind fst snd]. eauto.
  Qed.
End G.
