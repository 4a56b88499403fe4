(** A column moved into a lookup table, in the script of a catalog mutation. *)
From Verif Require Import PyStr QuoteModel ObjectDict ObjectDictSpec ObjectDictProofs Types Objects SqlAst Ddl Mutate DbSpec CatSpec MutSpec StmtSpec EqProofs NoopProofs KeySpec SortProofs StmtProofs StmtProofs2 DataSpec DataProofs1 DataProofs2 DataProofs3 DataProofs4 DataProofs5 DataProofs6.
From Verif Require Import TabProofs3 TablePredProofs.
From stdpp Require Import gmap strings.
Open Scope list_scope.

Section Catalog.
  Context (S : server) (L : lawful S) (d : dialect) (Hd : d = DPg \/ d = DMySQL) (o : options) (s t s' t' : catalog) (l : list stmt).
  Context (Ws : cat_wf d s) (Wt : cat_wf d t) (Cc : cat_compat d s t) (H : mutate_catalog d o s t = Ok (s', t', l)).
  Context (a b : namespace) (x y : table) (C : common_ns s t a b) (Ix : In x (n_tables a)) (Iy : In y (n_tables b)) (En : t_name x = t_name y).
  Context (u v : column) (Cu : common_col x y u v) (Mu : is_column_migrated d u v = true).
  (** the lookup table is a table of the same namespace *)
  Context (yq : table) (Iq : In yq (n_tables b)).
  Context (kn : string) (rc : list string) (F1 : In (CForeign kn [c_name v] (t_name yq) rc) (t_constraints y)).
  Context (F2 : forall kn' q' rc', In (CForeign kn' [c_name v] q' rc') (t_constraints y) -> q' = t_name yq).
  (** the table itself is not a lookup table of a moved column *)
  Context (NoL : forall a' b' z w q', common_ns s t a' b' -> In z (n_tables a') -> In w (n_tables b') -> t_key z = t_key w -> lookup_of d z w q' -> key_of q' <> key_of (t_name x)).
  Let k := key_of (t_name x).
  Let kq := key_of (t_name yq).
  Let n := c_name u.

  Lemma Ek : t_key x = t_key y. Proof. unfold t_key. now rewrite En. Qed.
  Lemma kq_k : kq <> k.
  Proof. apply (NoL a b x y (t_name yq) C Ix Iy Ek). exists u, v, kn, rc. auto. Qed.
  Lemma fst_k : fst k = n_name a. Proof. apply (key_scope d s a _ Ws); [apply C|now apply names_table]. Qed.
  Lemma fst_kq : fst kq = n_name a. Proof. replace (n_name a) with (n_name b) by (symmetry; apply C). apply (key_scope d t b _ Wt); [apply C|now apply names_table]. Qed.
  Lemma key_local p q : key_of p = key_of q -> local_id p = local_id q.
  Proof. unfold key_of. congruence. Qed.

  Lemma elsewhere_k st D D' : elsewhere d s t a st -> stmt_step S st D D' -> D' k = D k.
  Proof.
    intros [I|[(p & T & N)|[(A & a' & b' & z & w & p & Cz & Iz & Iw & E & Lk & T)|(c & m & -> & N)]]] Hs.
    - eapply inert_step; eauto.
    - eapply other_step; eauto. intros Z. apply N. rewrite Z. apply fst_k.
    - eapply other_step; eauto.
    - simpl in Hs. rewrite Hs. destruct (String.eqb_spec (fst k) m) as [Z|Z]; [|reflexivity]. exfalso. apply N. rewrite <- Z. apply fst_k.
  Qed.
  Lemma early_k st D D' : early d s t a b st -> stmt_step S st D D' -> D' k = D k.
  Proof.
    intros [E|(z & Iz & Nz & T)] Hs; [now apply (elsewhere_k st)|]. eapply other_step; eauto. intros Z. apply key_local in Z. apply Nz. unfold t_key at 1. rewrite Z. now apply (in_map t_key).
  Qed.
  Lemma late_k st D D' : late d s t a b x st -> stmt_step S st D D' -> D' k = D k.
  Proof.
    intros [E|[(z & w & l0 & Iz & Iw & E & N & M & I)|(z & Iz & Nz & ->)]] Hs; [now apply (elsewhere_k st)| |].
    - destruct (mutate_table_adds d z w l0 st M I) as [Z|[T|(A & q' & T & Lk)]].
      + eapply inert_step; eauto.
      + eapply other_step; eauto. intros Z. apply key_local in Z. now apply N.
      + eapply other_step; eauto.
    - eapply (other_step S (SDropTable (t_name z)) D D' (t_name z)); [reflexivity| |exact Hs]. intros Z. apply key_local in Z. apply Nz. unfold t_key at 1. rewrite Z. fold (t_key x). rewrite Ek. now apply in_map.
  Qed.
  Lemma fill_k fl st D D' : filled d a b fl -> In st fl -> stmt_step S st D D' -> D' k = D k.
  Proof.
    intros [Hf _] I Hs. destruct (Hf st I) as (e & z & Iz & Nz & ->). eapply (other_step S (migrate_enum d e z) D D' (t_name z)); [reflexivity| |exact Hs]. intros Z. apply key_local in Z. apply Nz. unfold t_key at 1. rewrite Z. now apply (in_map t_key).
  Qed.
  Lemma script_k l' D D' : (forall st, In st l' -> forall A B, stmt_step S st A B -> B k = A k) -> script S l' D D' -> D' k = D k.
  Proof.
    revert D. induction l' as [|st l' IH]; intros D K Hs; [apply Hs|]. destruct Hs as (M & H1 & H2). rewrite (IH M); auto; [|intros; eapply K; eauto; now right]. eapply K; eauto. now left.
  Qed.

  (** the lookup table is new, or not changed *)
  Context (Lq : ~ In (t_key yq) (map t_key (n_tables a)) \/ exists xq, In xq (n_tables a) /\ t_name xq = t_name yq /\ table_eqb xq yq = true).
  Definition grows (D D' : store) : Prop := exists new, D' kq = D kq ++ new.
  Lemma same_grows D D' : D' kq = D kq -> grows D D'.
  Proof. intros E. exists []. now rewrite app_nil_r. Qed.
  Lemma adds_grow st q D D' : adds_rows st -> stmt_target st = Some q -> stmt_step S st D D' -> grows D D'.
  Proof.
    intros A T Hs. destruct (decide (key_of q = kq)) as [E|E]; [|apply same_grows; eapply other_step; eauto].
    destruct st; try (destruct A; fail); simpl in T, Hs; injection T as ->; destruct Hs as [Hs _]; rewrite E in Hs.
    - apply insert_rows_extends in Hs. exact Hs.
    - apply Hs.
  Qed.
  Lemma elsewhere_grow st D D' : elsewhere d s t a st -> stmt_step S st D D' -> grows D D'.
  Proof.
    intros [I|[(p & T & N)|[(A & a' & b' & z & w & p & Cz & Iz & Iw & E & Lk & T)|(c & m & -> & N)]]] Hs.
    - apply same_grows. eapply inert_step; eauto.
    - apply same_grows. eapply other_step; eauto. intros Z. apply N. rewrite Z. apply fst_kq.
    - eapply adds_grow; eauto.
    - apply same_grows. simpl in Hs. rewrite Hs. destruct (String.eqb_spec (fst kq) m) as [Z|Z]; [|reflexivity]. exfalso. apply N. rewrite <- Z. apply fst_kq.
  Qed.
  Lemma late_grow st D D' : late d s t a b x st -> stmt_step S st D D' -> grows D D'.
  Proof.
    assert (Wa := cw_ns _ _ Ws a (proj1 C)). assert (Wb := cw_ns _ _ Wt b (proj1 (proj2 C))).
    intros [E|[(z & w & l0 & Iz & Iw & E & N & M & I)|(z & Iz & Nz & ->)]] Hs; [now apply (elsewhere_grow st)| |].
    - destruct (mutate_table_adds d z w l0 st M I) as [Z|[T|(A & q' & T & Lk)]]; [apply same_grows; eapply inert_step; eauto| |eapply adds_grow; eauto].
      destruct (decide (key_of (t_name z) = kq)) as [Z|Z]; [|apply same_grows; eapply other_step; eauto]. exfalso. apply key_local in Z.
      destruct Lq as [Lq'|(xq & Ixq & Eq & Et)]; [apply Lq'; unfold t_key at 1; rewrite <- Z; now apply (in_map t_key)|].
      assert (z = xq) by (apply (nodup_inj t_key (n_tables a)); auto; [now apply (table_keys_nodup d)|unfold t_key; congruence]).
      assert (w = yq) by (apply (nodup_inj t_key (n_tables b)); auto; [now apply (table_keys_nodup d)|unfold t_key in *; congruence]). subst.
      rewrite (table_noop d xq yq l0 (wf_keyed _ _ (nw_table _ _ Wa _ Iz)) (wf_keyed _ _ (nw_table _ _ Wb _ Iw)) Et M) in I. destruct I.
    - apply same_grows. eapply (other_step S (SDropTable (t_name z)) D D' (t_name z)); [reflexivity| |exact Hs]. intros Z. apply key_local in Z. apply Nz. unfold t_key at 1. rewrite Z. now apply (in_map t_key).
  Qed.
  Lemma early_grow st D D' : In (t_key yq) (map t_key (n_tables a)) -> early d s t a b st -> stmt_step S st D D' -> grows D D'.
  Proof.
    intros Lo [E|(z & Iz & Nz & T)] Hs; [now apply (elsewhere_grow st)|]. apply same_grows. eapply other_step; eauto. intros Z. apply key_local in Z. apply Nz. unfold t_key at 1. rewrite Z. exact Lo.
  Qed.
  Lemma fill_grow fl st D D' : filled d a b fl -> In st fl -> stmt_step S st D D' -> grows D D'.
  Proof. intros [Hf _] I Hs. destruct (Hf st I) as (e & z & Iz & Nz & ->). apply (adds_grow (migrate_enum d e z) (t_name z) D D' Logic.I eq_refl Hs). Qed.
  Lemma grows_trans A B D : grows A B -> grows B D -> grows A D.
  Proof. intros (n1 & E1) (n2 & E2). exists (n1 ++ n2). now rewrite E2, E1, app_assoc. Qed.
  Lemma script_grow l' D D' : (forall st, In st l' -> forall A B, stmt_step S st A B -> grows A B) -> script S l' D D' -> grows D D'.
  Proof.
    revert D. induction l' as [|st l' IH]; intros D K Hs; [apply same_grows, Hs|]. destruct Hs as (M & H1 & H2). eapply grows_trans; [eapply K; [now left|exact H1]|]. apply IH; auto. intros; eapply K; eauto. now right.
  Qed.
  Lemma grows_label A B c : grows A B -> labelled S (A kq) c -> labelled S (B kq) c.
  Proof. intros (new & ->) (e & lb & I & Le & Sb). exists e, lb. split; [apply in_or_app; auto|auto]. Qed.

  (** the labels that the lookup table is known to have when the column is moved *)
  Definition known (D : store) (c : string) : Prop :=
    (d = DMySQL /\ is_varchar (c_type u) = true) \/ (exists vs, d = DMySQL /\ base_type (c_type u) = TEnum vs /\ In c vs)
    \/ (In (t_key yq) (map t_key (n_tables a)) /\ labelled S (D kq) c)
    \/ (exists e, d = DPg /\ In e (n_enums a) /\ ~ In (e_key e) (map e_key (n_enums b)) /\ e_name e = t_name yq /\ ~ In (t_key yq) (map t_key (n_tables a)) /\ In c (e_values e)).
  Theorem moved_in_catalog D D' : script S l D D' ->
    (forall r, In r (D k) -> cell_fits S (c_type u) (r n)) ->
    (forall e, In e (D' kq) -> cell_fits S (c_type v) (e "id"%string)) ->
    (forall r c, In r (D k) -> r n = Some (PStr c) -> known D c) ->
    Forall2 (moved_row S u (D' kq) (plain_null v)) (D k) (D' k)
    /\ (In (t_key yq) (map t_key (n_tables a)) -> exists new, D' kq = D kq ++ new)
    /\ (forall e c, d = DPg -> In e (n_enums a) -> ~ In (e_key e) (map e_key (n_enums b)) -> e_name e = t_name yq -> ~ In (t_key yq) (map t_key (n_tables a)) -> In c (e_values e) -> labelled S (D' kq) c).
  Proof.
    intros Hs Fu Fv Kn.
    destruct (cat_split d o s t a b x y Ws Wt C Ix Iy Ek s' t' l H) as (L0 & fl & mid & lxy & L2 & El & Hxy & Hf & He & Hl).
    rewrite El in Hs. apply script_app in Hs as (M0 & T0 & Hs). apply script_app in Hs as (M1 & T1 & Hs). apply script_app in Hs as (M2 & T2 & Hs). apply script_app in Hs as (M3 & T3 & T4).
    assert (K0 : M0 k = D k) by (eapply script_k; [|exact T0]; intros st I A B; apply early_k; auto).
    assert (K1 : M1 k = M0 k) by (eapply script_k; [|exact T1]; intros st I A B; eapply fill_k; eauto).
    assert (K2 : M2 k = M1 k) by (eapply script_k; [|exact T2]; intros st I A B; apply late_k, Hl, in_or_app; auto).
    assert (K4 : D' k = M3 k) by (eapply script_k; [|exact T4]; intros st I A B; apply late_k, Hl, in_or_app; auto).
    assert (G0 : In (t_key yq) (map t_key (n_tables a)) -> grows D M0) by (intros Lo; eapply script_grow; [|exact T0]; intros st I A B; apply early_grow; auto).
    assert (G1 : grows M0 M1) by (eapply script_grow; [|exact T1]; intros st I A B; eapply fill_grow; eauto).
    assert (G2 : grows M1 M2) by (eapply script_grow; [|exact T2]; intros st I A B; apply late_grow, Hl, in_or_app; auto).
    assert (G4 : grows M3 D') by (eapply script_grow; [|exact T4]; intros st I A B; apply late_grow, Hl, in_or_app; auto).
    assert (Lf : forall e c, d = DPg -> In e (n_enums a) -> ~ In (e_key e) (map e_key (n_enums b)) -> e_name e = t_name yq -> ~ In (t_key yq) (map t_key (n_tables a)) -> In c (e_values e) -> labelled S (M1 kq) c).
    { intros e c Dp Ie Ne Ee Nq Ic. destruct Hf as [Hf1 Hf2]. assert (If := Hf2 e yq Ie Ne Iq Nq Ee). apply in_split in If as (f1 & f2 & Ef). rewrite Ef in T1. apply script_app in T1 as (Z1 & T11 & Z2 & T12 & T13).
      eapply grows_label; [eapply script_grow; [|exact T13]; intros st I A B; eapply (fill_grow fl); [split; [exact Hf1|exact Hf2]|]; rewrite Ef; apply in_or_app; right; now right|].
      unfold migrate_enum in T12. rewrite Dp in T12. destruct T12 as [T12 _]. fold kq in T12. destruct (insert_rows_labels S L PgDoNothing (e_values e) ltac:(discriminate) _ _ T12) as (new & _ & Hall). apply Hall. now apply in_map. }
    assert (Tc := nc_table _ _ _ (cc_ns _ _ _ Cc a b (proj1 C) (proj1 (proj2 C)) (proj2 (proj2 C))) x y Ix Iy Ek).
    assert (Wx := nw_table _ _ (cw_ns _ _ Ws a (proj1 C)) x Ix). assert (Wy := nw_table _ _ (cw_ns _ _ Wt b (proj1 (proj2 C))) y Iy).
    assert (Nx : List.NoDup (map c_name (t_columns x))) by (apply NoDup_ListNoDup, (tw_cols _ _ Wx)). assert (Ny : List.NoDup (map c_name (t_columns y))) by (apply NoDup_ListNoDup, (tw_cols _ _ Wy)).
    assert (Safe : forall p p', common_col x y p p' -> is_column_migrated d p p' = true ->
      c_identity p = false /\ c_identity p' = false /\ ~ In (deleted (c_name p)) (map c_name (t_columns x)) /\ ~ In (deleted (c_name p)) (map c_name (t_columns y))
      /\ forall kn q rc, In (CForeign kn [c_name p'] q rc) (t_constraints y) -> key_of q <> key_of (t_name x)).
    { intros p p' (P1 & P2 & P3) M. destruct (tc_mig _ _ _ Tc p p' P1 P2 P3) as (_ & I1 & I2 & I3 & I4 & _); [now apply migrated_spec|]. repeat (split; [assumption|]).
      intros kn' q' rc' Ik. apply (NoL a b x y q' C Ix Iy Ek). exists p, p', kn', rc'. split; [split; auto|auto]. }
    destruct (moved_rows S L d Hd x y Nx Ny Safe u v Cu Mu (t_name yq) F2 lxy Hxy M2 M3 kq_k T3) as [G3 R].
    - fold k. rewrite K2, K1, K0. exact Fu.
    - intros e Ie. apply Fv. destruct G4 as (nw & ->). apply in_or_app; auto.
    - fold k. rewrite K2, K1, K0. intros r c Ir Er. destruct (Kn r c Ir Er) as [Z|[Z|[(Lo & Z)|(e & Dp & Ie & Ne & Ee & Nq & Ic)]]]; [auto|auto| |].
      + right. right. eapply grows_label; [|exact Z]. eapply grows_trans; [apply G0, Lo|]. eapply grows_trans; [exact G1|exact G2].
      + right. right. eapply grows_label; [exact G2|]. eapply Lf; eauto.
    - split; [|split].
      + fold k in R. rewrite K2, K1, K0 in R. rewrite K4. eapply Forall2_impl; [exact R|]. intros r r' [R1 R2]. split; [|exact R2]. intros c Er. destruct (R1 c Er) as (e & lb & Ie & Z). exists e, lb. split; [|exact Z]. destruct G4 as (nw & ->). apply in_or_app; auto.
      + intros Lo. eapply grows_trans; [apply G0, Lo|]. eapply grows_trans; [exact G1|]. eapply grows_trans; [exact G2|]. eapply grows_trans; [exact G3|exact G4].
      + intros e c Dp Ie Ne Ee Nq Ic. eapply grows_label; [|eapply Lf; eauto]. eapply grows_trans; [exact G2|]. eapply grows_trans; [exact G3|exact G4].
  Qed.
End Catalog.
