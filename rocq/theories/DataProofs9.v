(** A table that no moved column refers to gets no new rows; tables that are in neither catalog are not touched. *)
From Verif Require Import PyStr QuoteModel ObjectDict ObjectDictSpec ObjectDictProofs Types Objects SqlAst Ddl Mutate DbSpec CatSpec MutSpec StmtSpec EqProofs NoopProofs KeySpec SortProofs StmtProofs StmtProofs2 DataSpec DataProofs1 DataProofs2 DataProofs3 DataProofs4 DataProofs5 DataProofs6 DataProofs7.
From stdpp Require Import gmap strings.
Open Scope list_scope.

Lemma forall2_len {A B} (R : A -> B -> Prop) l l' : Forall2 R l l' -> length l' = length l.
Proof. induction 1; simpl; congruence. Qed.
Lemma on_rows_len S acts : forall rows rows', on_rows S acts rows rows' -> length rows' = length rows.
Proof. induction acts as [|a acts IH]; simpl; intros rows rows' H; [congruence|]. destruct H as (mid & H1 & H2). rewrite (IH _ _ H2). now apply forall2_len in H1. Qed.

Section Same.
  Context (S : server) (d : dialect) (o : options) (s t s' t' : catalog) (l : list stmt).
  Context (Ws : cat_wf d s) (Wt : cat_wf d t) (H : mutate_catalog d o s t = Ok (s', t', l)).
  Context (a b : namespace) (x y : table) (C : common_ns s t a b) (Ix : In x (n_tables a)) (Iy : In y (n_tables b)) (En : t_name x = t_name y).
  Context (NoL : forall a' b' z w q', common_ns s t a' b' -> In z (n_tables a') -> In w (n_tables b') -> t_key z = t_key w -> lookup_of d z w q' -> key_of q' <> key_of (t_name x)).
  Let k := key_of (t_name x).
  Lemma mutate_len lxy D D' : mutate_table d x y = Ok lxy -> script S lxy D D' -> length (D' k) = length (D k).
  Proof.
    intros M. assert (G : forall st, In st lxy -> forall A B, stmt_step S st A B -> length (B k) = length (A k)).
    { intros st I A B Hs. destruct (mutate_table_in d x y lxy st M I) as [(acts & -> & _)|[(c & ->)|[(n' & c & ->)|[(c & ->)|[(q' & cs & rows & oc & n' & k' & rc & -> & Z)|[(q' & c & n' & k' & rc & -> & Z)|(u' & v' & q' & _ & _ & ->)]]]]]].
      - destruct Hs as [Hs _]. now apply on_rows_len in Hs.
      - now rewrite (Hs k).
      - now rewrite (Hs k).
      - now rewrite (Hs k).
      - f_equal. destruct (table_adds_lookup d x y lxy _ M I Logic.I) as (q & T & Lk). eapply other_step; [exact T| |exact Hs]. apply (NoL a b x y q C Ix Iy); [unfold t_key; now rewrite En|exact Lk].
      - f_equal. destruct (table_adds_lookup d x y lxy _ M I Logic.I) as (q & T & Lk). eapply other_step; [exact T| |exact Hs]. apply (NoL a b x y q C Ix Iy); [unfold t_key; now rewrite En|exact Lk].
      - destruct Hs as [Hs _]. now apply forall2_len in Hs. }
    clear M. revert D. induction lxy as [|st lxy IH]; intros D Hs; [now rewrite (Hs k)|]. destruct Hs as (A & H1 & H2). rewrite (IH (fun z I => G z (or_intror I)) A H2). eapply G; [now left|exact H1].
  Qed.
  Theorem no_new_rows D D' : script S l D D' -> length (D' k) = length (D k).
  Proof.
    intros Hs. assert (Ek : t_key x = t_key y) by (unfold t_key; now rewrite En).
    destruct (cat_split d o s t a b x y Ws Wt C Ix Iy Ek s' t' l H) as (L0 & fl & mid & lxy & L2 & El & Hxy & Hf & He & Hl).
    rewrite El in Hs. apply script_app in Hs as (M0 & T0 & Hs). apply script_app in Hs as (M1 & T1 & Hs). apply script_app in Hs as (M2 & T2 & Hs). apply script_app in Hs as (M3 & T3 & T4).
    assert (K0 : M0 k = D k) by (eapply script_k; [|exact T0]; intros st I A B; apply (early_k S d s t Ws a b x C Ix NoL); auto).
    assert (K1 : M1 k = M0 k) by (eapply script_k; [|exact T1]; intros st I A B; eapply fill_k; eauto).
    assert (K2 : M2 k = M1 k) by (eapply script_k; [|exact T2]; intros st I A B; apply (late_k S d s t Ws a b x y C Ix Iy En NoL); apply Hl, in_or_app; auto).
    assert (K4 : D' k = M3 k) by (eapply script_k; [|exact T4]; intros st I A B; apply (late_k S d s t Ws a b x y C Ix Iy En NoL); apply Hl, in_or_app; auto).
    rewrite K4, (mutate_len lxy M2 M3 Hxy T3). congruence.
  Qed.
End Same.
