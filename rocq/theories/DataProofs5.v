(** A column moved into a lookup table: what happens to each row. *)
From Verif Require Import PyStr QuoteModel ObjectDict ObjectDictSpec ObjectDictProofs Types Objects SqlAst Ddl Mutate DbSpec CatSpec MutSpec StmtSpec EqProofs NoopProofs KeySpec SortProofs StmtProofs StmtProofs2 DataSpec DataProofs1 DataProofs2 DataProofs3 DataProofs4.
From Verif Require Import TabProofs3 TablePredProofs.
From stdpp Require Import gmap strings.
Open Scope list_scope.

Lemma forall2_in {A B} (R : A -> B -> Prop) l l' : Forall2 R l l' -> Forall2 (fun a b => In a l /\ In b l' /\ R a b) l l'.
Proof.
  induction 1; constructor; [split; [now left|split; [now left|auto]]|]. eapply Forall2_impl; [exact IHForall2|]. intros a b (I1 & I2 & I3). split; [now right|]. split; [now right|auto].
Qed.
Lemma forall2_and {A B} (R Q : A -> B -> Prop) l l' : Forall2 R l l' -> Forall2 Q l l' -> Forall2 (fun a b => R a b /\ Q a b) l l'.
Proof. induction 1; intros H'; inversion H'; subst; constructor; auto. Qed.

Lemma Forall2_in_l {A B} (R : A -> B -> Prop) l l' : Forall2 R l l' -> (forall a, In a l -> exists b, In b l' /\ R a b) /\ True.
Proof. intros H. split; [|exact Logic.I]. induction H; intros a []; [subst; exists y; split; [now left|auto]|]. destruct (IHForall2 a H1) as (b & I & Hb). exists b. split; [now right|auto]. Qed.
Lemma insert_rows_labels (S : server) (L : lawful S) oc vs : oc <> NoClause -> forall rows rows', insert_rows S ["value"%string] oc (map PStr vs) rows rows' ->
  exists new, rows' = rows ++ new /\ forall a, In (PStr a) (map PStr vs) -> labelled S rows' a.
Proof.
  intros Hoc. induction vs as [|v vs IH]; intros rows rows' H; simpl in H; [subst; exists []; rewrite app_nil_r; split; auto; intros a []|].
  destruct H as (mid & H1 & H2). destruct (IH _ _ H2) as (new & -> & Hall). destruct (insert_one_extends _ _ _ _ _ _ H1) as (n1 & ->).
  exists (n1 ++ new). split; [now rewrite app_assoc|]. intros a [[= ->]|I]; [|now apply Hall].
  assert (Hl : labelled S (rows ++ n1) a).
  { destruct H1 as [(r & (c & E & G) & Er & _)|(_ & Er & b & [= <-] & Hb)].
    - injection E as <-. exists r, a. split; [rewrite Er; apply in_or_app; right; now left|]. split; [exact G|]. apply (lw_refl _ L).
    - rewrite Er. exact Hb. }
  destruct Hl as (e & lb & Ie & Le & Sb). exists e, lb. split; [apply in_or_app; auto|auto].
Qed.

Section Move.
  Context (S : server) (L : lawful S) (d : dialect) (Hd : d = DPg \/ d = DMySQL).
  Context (x y : table) (Nx : List.NoDup (map c_name (t_columns x))) (Ny : List.NoDup (map c_name (t_columns y))) (En : t_name x = t_name y).
  Context (Safe : forall a b, common_col x y a b -> is_column_migrated d a b = true ->
    c_identity a = false /\ c_identity b = false /\ ~ In (deleted (c_name a)) (map c_name (t_columns x)) /\ ~ In (deleted (c_name a)) (map c_name (t_columns y))
    /\ forall kn q rc, In (CForeign kn [c_name b] q rc) (t_constraints y) -> key_of q <> key_of (t_name x)).
  Context (u v : column) (Cu : common_col x y u v) (Mu : is_column_migrated d u v = true).
  Context (q : qid) (Q1 : forall kn q' rc, In (CForeign kn [c_name v] q' rc) (t_constraints y) -> q' = q).
  Let k := key_of (t_name x).
  Let kq := key_of q.
  Let n := c_name u.
  Let m := deleted n.
  Lemma n_v : c_name v = n. Proof. symmetry. apply Cu. Qed.
  Lemma m_not_n : m <> n. Proof. apply deleted_neq. Qed.
  Lemma get_ref p r : get_constraint y (c_name p) = Ok r -> exists kn, In (CForeign kn [c_name p] (fst r) (snd r)) (t_constraints y).
  Proof.
    unfold get_constraint. destruct (find_reference _ _) as [r'|] eqn:E; [|discriminate]. intros [= <-]. apply find_reference_some in E as (l1 & kn & l2 & E & _). exists kn. rewrite E. apply in_or_app. right. now left.
  Qed.
  (** cells kept by the statements for other migrated columns *)
  Lemma soft_avoids p b c : other_pair d x y n p -> soft_drop_column d (fst p) = Ok b -> c = n \/ c = m -> avoids c b.
  Proof.
    intros (C & M & N) H Hc. assert (Z : c_name (fst p) <> c /\ deleted (c_name (fst p)) <> c).
    { destruct (Safe _ _ C M) as (_ & _ & S1 & _). destruct (Safe _ _ Cu Mu) as (_ & _ & S2 & _). destruct Hc as [-> | ->]; split; auto.
      - intros E. apply S1. rewrite E. apply in_map, Cu.
      - intros E. apply S2. fold n. fold m. rewrite <- E. apply in_map, C.
      - intros E. apply N. now apply deleted_inj in E. }
    unfold soft_drop_column in H. destruct Hd as [E|E]; rewrite E in H.
    - injection H as <-. exact Z.
    - destruct (column_def DMySQL (fst p)); simpl in H; [|discriminate]. injection H as <-. exact Z.
  Qed.
  Lemma add_avoids w cdw c : In w (t_columns y) -> c_name w <> n -> column_def d w = Ok cdw -> c = n \/ c = m -> avoids c (AAddColumn cdw).
  Proof.
    intros I N H Hc. apply column_def_fields in H as (E & _ & _). simpl. rewrite E. destruct Hc as [-> | ->]; [exact N|]. intros Z.
    destruct (Safe _ _ Cu Mu) as (_ & _ & _ & S2 & _). apply S2. fold n. fold m. rewrite <- Z. now apply in_map.
  Qed.
  Lemma move_step p r st D D' (P : string -> Prop) : other_pair d x y n p -> migrate_column d x (fst p) y (snd p) = Ok r -> In st r ->
    stmt_step S st D D' -> (forall c, P c -> c = n \/ c = m) -> Forall2 (same_on P) (D k) (D' k).
  Proof.
    intros (C & M & N) H I Hs HP.
    assert (Hr : forall rf, get_constraint y (c_name (snd p)) = Ok rf -> key_of (fst rf) <> k).
    { intros rf G. apply get_ref in G as (kn & G). destruct (Safe _ _ C M) as (_ & _ & _ & _ & S3). eapply S3; eauto. }
    assert (Up : forall rf, stmt_step S (SUpdateLookup (t_name x) (c_name (snd p)) (deleted (c_name (fst p))) rf) D D' -> Forall2 (same_on P) (D k) (D' k)).
    { intros rf [Hu _]. eapply Forall2_impl; [exact Hu|]. intros r0 r0' Lk c Hc. destruct Lk as [(e & la & lb & _ & _ & _ & _ & Sm)|(_ & Sm)]; rewrite Sm; [|reflexivity]. apply set_cell_ne.
      destruct C as (I1 & I2 & E1). rewrite <- E1. destruct (HP c Hc) as [-> | ->]; [congruence|]. intros Z. destruct (Safe _ _ Cu Mu) as (_ & _ & S2 & _). apply S2. fold n. fold m. rewrite Z. now apply in_map. }
    assert (Ot : forall st', stmt_step S st' D D' -> forall rf, stmt_target st' = Some rf -> key_of rf <> k -> Forall2 (same_on P) (D k) (D' k)).
    { intros st' Hst rf T K. rewrite (other_step S st' D D' rf k T K Hst). apply forall2_refl. intros. apply same_on_refl. }
    unfold migrate_column in H. destruct Hd as [E|E]; rewrite E in H; destruct (get_constraint y (c_name (snd p))) as [rf|] eqn:G; cbn [bind] in H; try discriminate; injection H as <-.
    - destruct I as [<-|[]]. eapply Up; eauto.
    - apply in_app_or in I as [I|[<-|[]]]; [|eapply Up; eauto]. destruct (base_type (c_type (fst p))); try (destruct I; fail); destruct I as [<-|[]]; (eapply Ot; [exact Hs|reflexivity|now apply Hr]).
  Qed.
  Lemma keep_one (P : string -> Prop) acts D D' : stmt_step S (SAlterTable (t_name x) acts) D D' -> (forall a c, In a acts -> P c -> avoids c a) -> Forall2 (same_on P) (D k) (D' k).
  Proof. intros [H _] A. now apply (avoids_rows S P acts). Qed.

  (** the cell after the last ALTER TABLE statement *)
  Lemma last_calm a : last_act d x y a -> calm n (c_type v) false a.
  Proof.
    intros [p p' C M ->|p p' l C H I|p I N ->|[(kn & ->)|(kn & ->)]]; try exact Logic.I.
    - simpl. destruct (Safe _ _ C M) as (_ & _ & S1 & _). intros E. apply S1. rewrite E. apply in_map, Cu.
    - eapply mutate_column_acts; eauto; [apply C|]. intros Q. destruct C as (C1 & C2 & C3).
      assert (p' = v) by (apply (nodup_inj c_name (t_columns y)); auto; [apply Cu|]; rewrite n_v; congruence). subst p'. split; [reflexivity|]. apply (Safe u v Cu Mu).
    - unfold drop_column. assert (Z : c_name p <> n) by (intros Q; apply N; rewrite Q; rewrite <- n_v; apply in_map, Cu). destruct d; try exact Z. destruct (c_default p); exact Z.
  Qed.

  Context (l : list stmt) (Ml : mutate_table d x y = Ok l).
  (** the lookup table only gets rows *)
  Lemma lookup_grows kx l' : kx <> k -> (forall st, In st l' -> In st l) -> grows_at S kx l'.
  Proof.
    intros K Sub. apply grows_at_all. intros st D D' I Hs. apply Sub in I.
    assert (Same : D' kx = D kx -> exists new, D' kx = D kx ++ new) by (intros ->; exists []; now rewrite app_nil_r).
    assert (Ot : forall st', stmt_step S st' D D' -> forall rf, stmt_target st' = Some rf -> key_of rf = k -> exists new, D' kx = D kx ++ new).
    { intros st' Hst rf T E. apply Same. eapply other_step; eauto. congruence. }
    assert (Ins : forall rf (X : Prop) , (at_key rf (fun rows => exists new, rows = D (key_of rf) ++ new) D D') -> exists new, D' kx = D kx ++ new).
    { intros rf _ [A B]. destruct (decide (kx = key_of rf)) as [->|E]; [exact A|]. apply Same. now apply B. }
    destruct (mutate_table_in d x y l st Ml I) as [(acts & -> & _)|[(c & ->)|[(n' & c & ->)|[(c & ->)|[(q' & cs & rows & oc & n' & k' & rc & -> & Z)|[(q' & c & n' & k' & rc & -> & Z)|(u' & v' & q' & _ & _ & ->)]]]]]].
    - eapply Ot; [exact Hs|reflexivity|reflexivity].
    - apply Same. exact (Hs kx).
    - apply Same. exact (Hs kx).
    - apply Same. exact (Hs kx).
    - apply (Ins q' True). destruct Hs as [A B]. split; [|exact B]. now apply insert_rows_extends in A.
    - apply (Ins q' True). destruct Hs as [A B]. split; [|exact B]. apply A.
    - eapply Ot; [exact Hs|reflexivity|reflexivity].
  Qed.
  (** how a row is related to its old version *)
  Definition moved_row (lookup : list record) (nullable : bool) (r r' : record) : Prop :=
    (forall a, r n = Some (PStr a) -> exists e b, In e lookup /\ label e b /\ sv_same S a b = true /\ r' n = e "id"%string)
    /\ (nullable = true -> r n = None -> r' n = None).
  Definition plain_null : bool := (c_nullable v && match c_default v with None => true | Some _ => false end)%bool.
  Lemma new_null cd w : column_def d v = Ok cd -> plain_null = true -> new_value S cd w -> w = None.
  Proof.
    intros H P. unfold plain_null in P. apply andb_true_iff in P as [P1 P2]. destruct (c_default v) eqn:Ed; [discriminate|]. destruct (Safe u v Cu Mu) as (_ & I0 & _).
    unfold column_def in H. destruct (type_str (c_type v)); cbn [bind] in H; [|discriminate]. rewrite P1, Ed, I0 in H. unfold new_value. destruct Hd as [E|E]; rewrite E in H.
    - injection H as <-. cbn. auto.
    - destruct (mysql_comment (c_desc v)); cbn [bind] in H; [|discriminate]. injection H as <-. cbn. auto.
  Qed.

  Theorem moved_rows D D' : kq <> k -> script S l D D' ->
    (forall r, In r (D k) -> cell_fits S (c_type u) (r n)) ->
    (forall e, In e (D' kq) -> cell_fits S (c_type v) (e "id"%string)) ->
    (forall r a, In r (D k) -> r n = Some (PStr a) -> (d = DMySQL /\ is_varchar (c_type u) = true) \/ (exists vs, d = DMySQL /\ base_type (c_type u) = TEnum vs /\ In a vs) \/ labelled S (D kq) a) ->
    (exists new, D' kq = D kq ++ new) /\ Forall2 (moved_row (D' kq) plain_null) (D k) (D' k).
  Proof.
    intros Kq Hs Fu Fv Kn. split; [apply (lookup_grows kq l); auto|].
    destruct (mutate_table_shape d x y u v l Hd Nx Ny Cu Mu Ml) as [(s1 & a & s2 & c1 & cd & c2 & o1 & mv & o2 & fin & cm & El & Ha & Hcd & Hmv & Hs12 & Hc12 & Ho12 & Hfin & Hcm)].
    assert (Sub : forall st, In st mv \/ In st o2 \/ In st (o2 ++ [SAlterTable (t_name x) fin] ++ cm) \/ In st (s1 ++ [SAlterTable (t_name x) [a]] ++ s2 ++ [SAlterTable (t_name x) (c1 ++ AAddColumn cd :: c2)] ++ o1) -> In st l).
    { rewrite El. intros st. rewrite !in_app_iff. tauto. }
    assert (Hs' := Hs). rewrite El in Hs'.
    apply script_app in Hs' as (D1 & T1 & Hs'). apply script_app in Hs' as (D2 & T2 & Hs'). apply script_app in Hs' as (D3 & T3 & Hs'). apply script_app in Hs' as (D4 & T4 & Hs').
    apply script_app in Hs' as (D5 & T5 & Hs'). apply script_app in Hs' as (D6 & T6 & Hs'). apply script_app in Hs' as (D7 & T7 & Hs'). apply script_app in Hs' as (D8 & T8 & T9).
    assert (Soft : forall l', (forall st, In st l' -> In st (s1 ++ s2)) -> forall P : string -> Prop, (forall c, P c -> c = n \/ c = m) -> keeps_at S P k l').
    { intros l' Sb P HP. apply keeps_at_all. intros st A B I Hst. apply Sb in I. apply Hs12 in I as (p & b & Op & Hb & ->). eapply keep_one; [exact Hst|]. intros a' c [<-|[]] Hc. eapply soft_avoids; eauto. }
    assert (Mov : forall l', (forall st, In st l' -> In st (o1 ++ o2)) -> forall P : string -> Prop, (forall c, P c -> c = n \/ c = m) -> keeps_at S P k l').
    { intros l' Sb P HP. apply keeps_at_all. intros st A B I Hst. apply Sb in I. apply Ho12 in I as (p & r & Op & Hr & I). eapply move_step; eauto. }
    (* before the column is put aside *)
    assert (R1 : Forall2 (same_on (fun c => c = n)) (D k) (D1 k)).
    { apply (Soft s1); auto. intros st I. apply in_or_app. auto. }
    (* put aside *)
    assert (R2 : Forall2 (fun r r' => cell_fits S (c_type u) (r n) -> r' m = r n) (D1 k) (D2 k)).
    { destruct T2 as (D2' & [T2 _] & E2). simpl in E2. rewrite E2. fold k in T2. cbn [on_rows] in T2. destruct T2 as (mid & T2 & ->). eapply Forall2_impl; [exact T2|]. intros r r' Hr Fr.
      unfold soft_drop_column in Ha. destruct Hd as [Z|Z]; rewrite Z in Ha.
      - injection Ha as <-. simpl in Hr. rewrite Hr. apply set_cell_eq.
      - destruct (column_def DMySQL u) as [cdu|] eqn:Ecu; cbn [bind] in Ha; [|discriminate]. injection Ha as <-. simpl in Hr. destruct Hr as (w & Hw & Sm). rewrite Sm. unfold m, n. rewrite set_cell_eq.
        apply column_def_fields in Ecu as (E1 & E3 & E4). rewrite E3, (E4 eq_refl) in Hw. destruct (Safe _ _ Cu Mu) as (I0 & _). rewrite I0 in Hw. destruct Hw as [Hw|[Hw _]]; [|discriminate].
        now apply (converted_same S L (c_type u)). }
    assert (R3 : Forall2 (same_on (fun c => c = m)) (D2 k) (D3 k)).
    { apply (Soft s2); auto. intros st I. apply in_or_app. auto. }
    assert (A3 : Forall2 (fun r r' => cell_fits S (c_type u) (r n) -> r' m = r n) (D k) (D3 k)).
    { assert (A23 : Forall2 (fun r r' => cell_fits S (c_type u) (r n) -> r' m = r n) (D1 k) (D3 k)).
      { eapply forall2_trans; [|exact R2|exact R3]. intros r1 r2 r3 H1 H2 F. rewrite (H2 m eq_refl). auto. }
      eapply forall2_trans; [|exact R1|exact A23]. intros r r1 r3 H1 H2 F. rewrite H2; rewrite (H1 n eq_refl); auto. }
    (* the new column *)
    assert (R4 : Forall2 (fun r r' => r' m = r m /\ new_value S cd (r' n)) (D3 k) (D4 k)).
    { destruct T4 as (D4' & [T4 _] & E4). simpl in E4. rewrite E4. fold k in T4. apply on_rows_app in T4 as (m1 & T41 & T42). cbn [on_rows] in T42. destruct T42 as (m2 & T42 & T43).
      assert (B1 : Forall2 (same_on (fun c => c = m)) (D3 k) m1).
      { eapply avoids_rows; [exact T41|]. intros b c Ib ->. destruct (Hc12 b (in_or_app _ _ _ (or_introl Ib))) as (w & cdw & I1 & I2 & I3 & ->). rewrite n_v in I2. eapply add_avoids; eauto. }
      assert (B3 : Forall2 (same_on (fun c => c = n \/ c = m)) m2 (D4' k)).
      { eapply avoids_rows; [exact T43|]. intros b c Ib Hc. destruct (Hc12 b (in_or_app _ _ _ (or_intror Ib))) as (w & cdw & I1 & I2 & I3 & ->). rewrite n_v in I2. eapply add_avoids; eauto. }
      assert (B2 : Forall2 (fun r r' => r' m = r m /\ new_value S cd (r' n)) m1 m2).
      { eapply Forall2_impl; [exact T42|]. intros r r' (w & Hw & Sm). apply column_def_fields in Hcd as (E & _). rewrite n_v in E. rewrite !Sm, E, set_cell_eq, set_cell_ne by apply m_not_n. auto. }
      assert (B23 : Forall2 (fun r r' => r' m = r m /\ new_value S cd (r' n)) m1 (D4' k)).
      { eapply forall2_trans; [|exact B2|exact B3]. intros r r1 r2 [H1 H2] H3. rewrite (H3 m), (H3 n) by auto. auto. }
      eapply forall2_trans; [|exact B1|exact B23]. intros r r1 r2 H1 [H2 H3]. rewrite H2. split; [now apply H1|exact H3]. }
    assert (R5 : Forall2 (same_on (fun c => c = n \/ c = m)) (D4 k) (D5 k)).
    { apply (Mov o1); auto. intros st I. apply in_or_app. auto. }
    assert (A5 : Forall2 (fun r r' => cell_fits S (c_type u) (r n) -> r' m = r n /\ new_value S cd (r' n)) (D k) (D5 k)).
    { assert (A45 : Forall2 (fun r r' => r' m = r m /\ new_value S cd (r' n)) (D3 k) (D5 k)).
      { eapply forall2_trans; [|exact R4|exact R5]. intros r r1 r2 [H1 H2] H3. rewrite (H3 m), (H3 n) by auto. auto. }
      eapply forall2_trans; [|exact A3|exact A45]. intros r r1 r2 H1 [H2 H3] F. rewrite H2. auto. }
    assert (A5' : Forall2 (fun r r' => In r (D k) /\ In r' (D5 k) /\ r' m = r n /\ new_value S cd (r' n)) (D k) (D5 k)).
    { eapply Forall2_impl; [apply forall2_in, A5|]. intros r r' (I1 & I2 & H). cbv beta in H. specialize (H (Fu r I1)). auto. }
    (* labels are in the lookup table when the keys are looked up *)
    assert (G5 : exists new, D5 kq = D kq ++ new).
    { apply (lookup_grows kq (s1 ++ [SAlterTable (t_name x) [a]] ++ s2 ++ [SAlterTable (t_name x) (c1 ++ AAddColumn cd :: c2)] ++ o1)); auto 10.
      apply script_app. exists D1. split; [exact T1|]. apply script_app. exists D2. split; [exact T2|]. apply script_app. exists D3. split; [exact T3|]. apply script_app. exists D4. auto. }
    assert (Lab : forall rows new b, labelled S rows b -> labelled S (rows ++ new) b).
    { intros rows new b (e & lb & I & Le & Sb). exists e, lb. split; [apply in_or_app; auto|auto]. }
    assert (R6 : exists L6, (forall e, In e L6 -> In e (D6 kq)) /\ Forall2 (looked_up S L6 n m) (D5 k) (D6 k) /\ forall r b, In r (D k) -> r n = Some (PStr b) -> labelled S L6 b).
    { unfold migrate_column in Hmv.
      assert (Gq : forall rf, get_constraint y (c_name v) = Ok rf -> fst rf = q) by (intros rf G; apply get_ref in G as (kn & G); eapply Q1; eauto).
      destruct Hd as [Z|Z]; rewrite Z in Hmv; destruct (get_constraint y (c_name v)) as [rf|] eqn:G; cbn [bind] in Hmv; try discriminate; injection Hmv as <-; assert (Gr := Gq _ eq_refl); rewrite Gr in *.
      - destruct T6 as (M6 & [T6 Oth] & E6). simpl in E6. exists (D5 kq). split; [rewrite E6; intros e I; rewrite (Oth kq Kq); exact I|]. rewrite E6. rewrite n_v in T6. fold k n m kq in T6. split; [exact T6|].
        intros r b I Eb. destruct G5 as (new & ->). destruct (Kn r b I Eb) as [[Zd _]|[(vs & Zd & _)|H]]; [congruence|congruence|]. now apply Lab.
      - apply script_app in T6 as (M5 & T61 & M6 & [T62 Oth] & E6). simpl in E6. rewrite n_v in T62. fold k n m kq in T62. 
        assert (Ek : M5 k = D5 k /\ (forall e, In e (D5 kq) -> In e (M5 kq)) /\ forall r b, In r (D k) -> r n = Some (PStr b) -> labelled S (M5 kq) b).
        { destruct G5 as (new & E5). assert (Old : forall b, labelled S (D kq) b -> labelled S (D5 kq) b) by (intros b Hb; rewrite E5; now apply Lab).
          destruct (base_type (c_type u)) eqn:Eb; try (simpl in T61; rewrite !T61; split; [reflexivity|]; split; [auto|]; intros r b I Er; destruct (Kn r b I Er) as [[_ H]|[(vs & _ & H & _)|H]]; [unfold is_varchar in H; rewrite Eb in H; discriminate|discriminate|now apply Old]).
          - destruct T61 as (M5' & [T61 Oth5] & E5'). simpl in E5'. rewrite !E5'. rewrite (Oth5 k) by (fold kq; congruence). fold kq in T61. destruct T61 as ((nw & En5) & T61). rewrite En5. fold k in T61. fold n in T61. fold m in T61.
            split; [reflexivity|]. split; [intros e I; apply in_or_app; auto|]. intros r b I Er.
            rewrite <- En5. destruct (proj1 (Forall2_in_l _ _ _ A5') r I) as (r5 & I5 & _ & _ & Em & _). destruct (T61 r5 I5) as (b' & Eb' & Hb). rewrite Em, Er in Eb'. injection Eb' as <-. exact Hb.
          - destruct T61 as (M5' & [T61 Oth5] & E5'). simpl in E5'. rewrite !E5'. rewrite (Oth5 k) by (fold kq; congruence). fold kq in T61.
            destruct (insert_rows_labels S L MyKeep _ ltac:(discriminate) _ _ T61) as (nw & En5 & Hall). split; [reflexivity|]. split; [rewrite En5; intros e I; apply in_or_app; auto|].
            intros r b I Er. destruct (Kn r b I Er) as [[_ H]|[(vs' & _ & H & Hin)|H]]; [unfold is_varchar in H; rewrite Eb in H; discriminate| |rewrite En5; apply Lab; now apply Old].
            injection H as <-. apply Hall. now apply in_map. }
        destruct Ek as (Ek & Emono & Elab). exists (M5 kq). split; [intros e I; rewrite E6, (Oth kq Kq); exact I|]. rewrite Ek in T62. split; [rewrite (E6 k); exact T62|exact Elab]. }
    destruct R6 as (L6 & In6 & R6 & Lab6).
    assert (A6 : Forall2 (moved_row (D6 kq) plain_null) (D k) (D6 k)).
    { eapply forall2_trans; [|exact A5'|exact R6]. intros r r5 r6 (I1 & I5 & Em & Enew) Lk. split.
      - intros b Er. rewrite Er in Em. destruct Lk as [(e & la & lb & Ie & Eo & Le & Sb & Sm)|(No & Sm)].
        + rewrite Em in Eo. injection Eo as <-. exists e, lb. split; [now apply In6|]. split; [exact Le|]. split; [exact Sb|]. rewrite Sm. apply set_cell_eq.
        + exfalso. destruct (Lab6 r b I1 Er) as (e & lb & Ie & Le & Sb). rewrite (No e b lb Ie Em Le) in Sb. discriminate.
      - intros Pn Er. rewrite Er in Em. destruct Lk as [(e & la & lb & Ie & Eo & Le & Sb & Sm)|(No & Sm)]; [congruence|]. rewrite Sm. eapply new_null; eauto. }
    assert (R7 : Forall2 (same_on (fun c => c = n)) (D6 k) (D7 k)).
    { apply (Mov o2); auto. intros st I. apply in_or_app. auto. }
    assert (G7 : exists new, D' kq = D6 kq ++ new).
    { apply (lookup_grows kq (o2 ++ [SAlterTable (t_name x) fin] ++ cm)); auto 10. apply script_app. exists D7. split; [exact T7|]. apply script_app. exists D8. auto. }
    assert (R8 : Forall2 (keeps S (fun c ty idn => c = n /\ ty = c_type v /\ idn = false)) (D7 k) (D8 k)).
    { destruct T8 as (D8' & [T8 _] & E8). simpl in E8. rewrite E8. fold k in T8. eapply (on_rows_keeps S L); [|exact T8]. intros b Ib c ty idn (-> & -> & ->). apply last_calm. now apply Hfin. }
    assert (E9 : D' k = D8 k).
    { clear - T9 Hcm. revert D8 T9. induction cm as [|st cm IH]; intros D8 T9; [apply T9|]. destruct T9 as (M & T91 & T92). rewrite (IH (fun st I => Hcm st (or_intror I)) M T92). eapply inert_step; [|exact T91]. apply Hcm. now left. }
    rewrite E9. destruct G7 as (nw & G7).
    assert (A78 : Forall2 (fun r r' => cell_fits S (c_type v) (r n) -> r' n = r n) (D6 k) (D8 k)).
    { eapply forall2_trans; [|exact R7|exact R8]. intros r6 r7 r8 H1 H2 F. rewrite <- (H1 n eq_refl). apply (H2 n (c_type v) false); auto; [now rewrite (H1 n eq_refl)|]. intros [Z _]. discriminate. }
    eapply forall2_trans; [|exact A6|exact A78].
    - intros r r6 r8 [H1 H2] H3. split.
      + intros b Er. destruct (H1 b Er) as (e & lb & Ie & Le & Sb & Eid). assert (Ie' : In e (D' kq)) by (rewrite G7; apply in_or_app; auto).
        exists e, lb. split; [exact Ie'|]. split; [exact Le|]. split; [exact Sb|]. rewrite <- Eid. apply H3. rewrite Eid. now apply Fv.
      + intros Pn Er. rewrite H3; [now apply H2|]. rewrite (H2 Pn Er). intros w Hw. discriminate.
  Qed.
End Move.
