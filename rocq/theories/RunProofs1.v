(** Creation statements keep the schema consistent after every statement. *)
From Verif Require Import PyStr QuoteModel ObjectDict Types Objects SqlAst Ddl Mutate DbSpec CatSpec DbLemmas TabProofs1 TabProofs2 NsProofs1 NsProofs2 NsProofs3.
From stdpp Require Import gmap strings.
Open Scope list_scope.

Definition tab_grow (tb tb' : dbtab) : Prop :=
  dt_pk tb' = dt_pk tb
  /\ (forall n c, dt_cols tb' !! n = Some c -> exists c0, dt_cols tb !! n = Some c0 /\ dc_type c0 = dc_type c)
  /\ (forall n, is_Some (dt_cols tb !! n) -> is_Some (dt_cols tb' !! n))
  /\ (forall n k, dt_cons tb !! n = Some k -> dt_cons tb' !! n = Some k).
Definition grow (v v' : option dbobj) : Prop :=
  match v, v' with
  | None, _ => True
  | Some (OTable tb), Some (OTable tb') => tab_grow tb tb'
  | Some (OStruct ms _), Some (OStruct ms' _) => ms' = ms
  | Some (OEnum a), Some (OEnum b) => b = a
  | _, _ => False
  end.
Definition grows (D D' : db) : Prop := db_schemas D ⊆ db_schemas D' /\ forall k, grow (db_objs D !! k) (db_objs D' !! k).

Lemma tab_grow_refl tb : tab_grow tb tb.
Proof. repeat split; eauto. Qed.
Lemma tab_grow_trans a b c : tab_grow a b -> tab_grow b c -> tab_grow a c.
Proof.
  intros (A1 & A2 & A3 & A4) (B1 & B2 & B3 & B4). split; [congruence|]. split; [|split; auto].
  intros n x Hx. destruct (B2 n x Hx) as (y & Hy & Ey). destruct (A2 n y Hy) as (z & Hz & Ez). exists z. split; [exact Hz|congruence].
Qed.
Lemma grow_refl v : grow v v.
Proof. destruct v as [[| |tb]|]; simpl; auto using tab_grow_refl. Qed.
Lemma grow_trans a b c : grow a b -> grow b c -> grow a c.
Proof.
  destruct a as [[| |ta]|], b as [[| |tb]|], c as [[| |tc]|]; simpl; try tauto; try congruence. apply tab_grow_trans.
Qed.
Lemma grows_refl D : grows D D.
Proof. split; [reflexivity|]. intros k. apply grow_refl. Qed.
Lemma grows_trans a b c : grows a b -> grows b c -> grows a c.
Proof. intros [A1 A2] [B1 B2]. split; [set_solver|]. intros k. eapply grow_trans; eauto. Qed.

Lemma grow_type D D' q : grows D D' -> type_exists D q -> type_exists D' q.
Proof.
  intros [_ G] (o & H & T). specialize (G (key_of q)). rewrite H in G. unfold type_exists.
  destruct o, (db_objs D' !! key_of q) as [[| |]|]; simpl in *; try contradiction; try discriminate; eexists; split; reflexivity.
Qed.
Lemma grow_types D D' t : grows D D' -> types_ok D t -> types_ok D' t.
Proof. intros G H q I. eapply grow_type; eauto. Qed.
Lemma grow_table D D' k tb : grows D D' -> db_objs D !! k = Some (OTable tb) -> exists tb', db_objs D' !! k = Some (OTable tb') /\ tab_grow tb tb'.
Proof. intros [_ G] H. specialize (G k). rewrite H in G. destruct (db_objs D' !! k) as [[| |tb']|]; simpl in G; try contradiction. eauto. Qed.
Lemma grow_fk D D' k : grows D D' -> fk_ok D k -> fk_ok D' k.
Proof.
  intros G. destruct k; simpl; auto. intros (L & t & H & Hk). split; [exact L|].
  destruct (grow_table D D' _ t G H) as (t' & H' & G1 & _ & _ & G4). exists t'. split; [exact H'|].
  destruct Hk as [Hk|(m & u & Hk)]; [left; congruence|right; eauto].
Qed.
Lemma grow_schema D D' k : grows D D' -> schema_ok D k = true -> schema_ok D' k = true.
Proof.
  intros [G _]. unfold schema_ok. rewrite !orb_true_iff, !bool_decide_eq_true. intros [H|H]; [now left|right; set_solver].
Qed.
Lemma grow_obj D D' o : grows D D' -> obj_ok D o -> obj_ok D' o.
Proof.
  intros G. destruct o as [vs|ms c|tb]; simpl; auto.
  - intros H n t Hn. eapply grow_types; eauto.
  - intros [H1 H2]. split; [intros n c Hn; eapply grow_types; eauto|]. intros n k Hk. destruct (H2 n k Hk). split; [eapply grow_fk; eauto|auto].
Qed.
Lemma db_ok_set D k o' : db_ok D -> grow (db_objs D !! k) (Some o') -> schema_ok D k = true -> obj_ok (set_obj k (Some o') D) o' ->
  db_ok (set_obj k (Some o') D) /\ grows D (set_obj k (Some o') D).
Proof.
  intros HD G S O. assert (GD : grows D (set_obj k (Some o') D)).
  { split; [reflexivity|]. intros k'. destruct (decide (k' = k)) as [->|N]; [rewrite set_obj_lookup; exact G|]. rewrite set_obj_lookup_ne by congruence. apply grow_refl. }
  split; [|exact GD]. intros k' o Hk. destruct (decide (k' = k)) as [->|N].
  - rewrite set_obj_lookup in Hk. injection Hk as <-. split; [exact O|exact S].
  - rewrite set_obj_lookup_ne in Hk by congruence. destruct (HD k' o Hk) as [H1 H2]. split; [eapply grow_obj; eauto|eapply grow_schema; eauto].
Qed.

(** the statements that a CREATE script consists of *)
Definition adds (a : action) : Prop := match a with AAddConstraint _ => True | _ => False end.
Definition creation (s : stmt) : Prop :=
  match s with
  | SCreateSchema _ _ | SCreateEnum _ _ | SCreateStruct _ _ | SCreateTable _ _ _ _ _ | SCommentTable _ _ | SCommentColumn _ _ _
  | SCommentType _ _ | SMyTableComment _ _ | SInsert _ _ _ _ => True
  | SAlterTable _ acts => forall a, In a acts -> adds a
  | _ => False
  end.
(** what must exist before a statement *)
Definition needs (s : stmt) (D : db) : Prop :=
  match s with
  | SCreateStruct _ ms => forall m, In m ms -> types_ok D (snd m)
  | SCreateTable _ cols _ _ _ => forall c, In c cols -> types_ok D (cd_type c)
  | SAlterTable _ acts => forall k, In (AAddConstraint k) acts -> fk_ok D k
  | SInsert q cols _ _ => has_cols D q cols
  | _ => True
  end.

Lemma add_constraint_step E k tb tb' : exec_action E (AAddConstraint k) tb = Some tb' ->
  tb' = DbTab (dt_cols tb) (dt_pk tb) (<[k_name k := k]> (dt_cons tb)) (dt_comment tb) /\ dt_cons tb !! k_name k = None
  /\ forall n, In n (own_cols k) -> is_Some (dt_cols tb !! n).
Proof.
  cbn [exec_action]. destruct (negb (is_alter k)); [discriminate|]. cbn [orb]. destruct (dt_cons tb !! k_name k) eqn:E1; [discriminate|]. cbn [is_none negb orb].
  destruct (negb (default_name_free (k_name k) tb)); [discriminate|]. cbn [orb]. destruct (existsb _ (own_cols k)) eqn:E2; [discriminate|].
  intros [= <-]. split; [reflexivity|]. split; [reflexivity|]. intros n I. destruct (dt_cols tb !! n) eqn:E3; [eauto|].
  assert (X : existsb (fun n => is_none (dt_cols tb !! n)) (own_cols k) = true). { apply existsb_exists. exists n. rewrite E3. auto. } rewrite X in E2. discriminate.
Qed.
Lemma add_constraints_run E acts tb tb' : (forall a, In a acts -> adds a) -> exec_actions E acts tb = Some tb' ->
  dt_cols tb' = dt_cols tb /\ dt_pk tb' = dt_pk tb /\ (forall n k, dt_cons tb !! n = Some k -> dt_cons tb' !! n = Some k)
  /\ (forall n k, dt_cons tb' !! n = Some k -> dt_cons tb !! n = Some k \/ (In (AAddConstraint k) acts /\ forall x, In x (own_cols k) -> is_Some (dt_cols tb !! x)))
  /\ (forall k, In (AAddConstraint k) acts -> dt_cons tb' !! k_name k = Some k).
Proof.
  revert tb. induction acts as [|a acts IH]; intros tb Ha H.
  - injection H as <-. split; [reflexivity|]. split; [reflexivity|]. split; [auto|]. split; [auto|intros k []].
  - cbn [exec_actions] in H. destruct a as [| | | | | | | | | | | | | | |k| |]; try (exfalso; exact (Ha _ (or_introl eq_refl))).
    destruct (exec_action E (AAddConstraint k) tb) as [t1|] eqn:E1; [|discriminate]. cbn [mbind option_bind] in H.
    apply add_constraint_step in E1 as (-> & E1 & E2). apply IH in H as (H1 & H2 & H3 & H4 & H5); [|intros a I; apply Ha; now right]. simpl in *.
    split; [exact H1|]. split; [exact H2|]. split; [|split].
    + intros n j Hj. apply H3. rewrite lookup_insert_ne; [exact Hj|congruence].
    + intros n j Hj. apply H4 in Hj as [Hj|[Hj Hc]]; [|right; split; [now right|exact Hc]].
      destruct (decide (n = k_name k)) as [->|N].
      * rewrite lookup_insert in Hj. injection Hj as <-. right. split; [now left|exact E2].
      * rewrite lookup_insert_ne in Hj by congruence. now left.
    + intros j [[= <-]|Hj]; [|now apply H5]. apply H3. apply lookup_insert.
Qed.

Lemma no_dup_true l : no_dup l = true -> base.NoDup l.
Proof. unfold no_dup. now rewrite bool_decide_eq_true. Qed.
Lemma create_obj_step k o D D1 : create_obj k o D = Some D1 -> D1 = set_obj k (Some o) D /\ db_objs D !! k = None /\ schema_ok D k = true.
Proof.
  unfold create_obj. destruct (db_objs D !! k) eqn:E; [discriminate|]. cbn [is_none andb]. destruct (schema_ok D k) eqn:S; [|discriminate]. intros [= <-]. auto.
Qed.
Lemma upd_table_step k f D D1 : upd_table k f D = Some D1 -> exists t t', db_objs D !! k = Some (OTable t) /\ f t = Some t' /\ D1 = set_obj k (Some (OTable t')) D.
Proof.
  unfold upd_table. destruct (db_objs D !! k) as [[| |t]|] eqn:E; try discriminate. destruct (f t) as [t'|] eqn:Ft; [|discriminate]. intros [= <-]. eauto.
Qed.

Theorem creation_step E s D D1 : creation s -> exec E s D = Some D1 -> db_ok D -> needs s D -> db_ok D1 /\ grows D D1.
Proof.
  intros Cs X HD N. destruct s as [ine n|c n|q vs|q ms|q|q n|q v|q acts|q cols pkn pk c|q|q acts|q c|q col c|q c|q c|q cols rows oc|q src col|q nc oc ref]; simpl in Cs; try contradiction; cbn [exec] in X.
  - destruct (bool_decide (n ∈ db_schemas D)); [destruct ine; [|discriminate]|]; injection X as <-; [split; [exact HD|apply grows_refl]|].
    assert (G : grows D (Db ({[n]} ∪ db_schemas D) (db_objs D))) by (split; [simpl; set_solver|intros k; apply grow_refl]).
    split; [|exact G]. intros k o Hk. destruct (HD k o Hk). split; [eapply grow_obj; eauto|eapply grow_schema; eauto].
  - destruct (no_dup vs); [|discriminate]. apply create_obj_step in X as (-> & X1 & X2). apply db_ok_set; auto; now rewrite X1.
  - destruct (no_dup (map fst ms)) eqn:Nd; [|discriminate]. apply create_obj_step in X as (-> & X1 & X2). apply db_ok_set; auto; [now rewrite X1|].
    intros n t Hn. apply elem_of_list_to_map_2, elem_of_list_In in Hn. eapply grow_types; [|exact (N _ Hn)].
    split; [reflexivity|]. intros k. destruct (decide (k = key_of q)) as [->|Nk]; [rewrite X1; exact I|]. rewrite set_obj_lookup_ne by congruence. apply grow_refl.
  - destruct (no_dup (map cd_name cols)) eqn:Nd; [|discriminate]. cbn [andb] in X. destruct (forallb _ pk); [|discriminate].
    apply create_obj_step in X as (-> & X1 & X2). apply db_ok_set; auto; [now rewrite X1|].
    split; [|intros n k Hk; simpl in Hk; rewrite lookup_empty in Hk; discriminate].
    intros n x Hn. simpl in Hn. apply elem_of_list_to_map_2, elem_of_list_In in Hn. apply in_map_iff in Hn as (y & [= <- <-] & Iy). simpl.
    eapply grow_types; [|exact (N _ Iy)].
    split; [reflexivity|]. intros k. destruct (decide (k = key_of q)) as [->|Nk]; [rewrite X1; exact I|]. rewrite set_obj_lookup_ne by congruence. apply grow_refl.
  - apply upd_table_step in X as (t & t' & X1 & X2 & ->). destruct (add_constraints_run E acts t t' Cs X2) as (A1 & A2 & A3 & A4 & _).
    destruct (HD _ _ X1) as [[O1 O2] S].
    assert (G : grow (db_objs D !! key_of q) (Some (OTable t'))).
    { rewrite X1. simpl. split; [exact A2|]. rewrite A1. split; [eauto|]. split; auto. }
    assert (GD : grows D (set_obj (key_of q) (Some (OTable t')) D)).
    { split; [reflexivity|]. intros k'. destruct (decide (k' = key_of q)) as [->|Nk]; [rewrite set_obj_lookup; exact G|]. rewrite set_obj_lookup_ne by congruence. apply grow_refl. }
    apply db_ok_set; auto. split.
    + intros n c Hc. rewrite A1 in Hc. eapply grow_types; [exact GD|exact (O1 n c Hc)].
    + intros n k Hk. rewrite A1. apply A4 in Hk as [Hk|[Hk Hc]].
      * destruct (O2 n k Hk). split; [eapply grow_fk; eauto|auto].
      * split; [eapply grow_fk; [exact GD|exact (N k Hk)]|exact Hc].
  - apply upd_table_step in X as (t & t' & X1 & X2 & ->). injection X2 as <-. destruct (HD _ _ X1) as [[O1 O2] S].
    assert (G : grow (db_objs D !! key_of q) (Some (OTable (DbTab (dt_cols t) (dt_pk t) (dt_cons t) (norm_comment c))))).
    { rewrite X1. simpl. repeat split; simpl; eauto. }
    apply db_ok_set; auto. eapply (grow_obj D); [|split; [exact O1|exact O2]].
    split; [reflexivity|]. intros k'. destruct (decide (k' = key_of q)) as [->|Nk]; [rewrite set_obj_lookup; exact G|]. rewrite set_obj_lookup_ne by congruence. apply grow_refl.
  - apply upd_table_step in X as (t & t' & X1 & X2 & ->). unfold upd_col in X2. destruct (dt_cols t !! col) as [x|] eqn:Ex; [|discriminate]. injection X2 as <-.
    destruct (HD _ _ X1) as [[O1 O2] S].
    match goal with |- context [set_obj _ (Some (OTable ?z)) _] => set (t' := z) end.
    assert (A2 : forall n y, dt_cols t' !! n = Some y -> exists c0, dt_cols t !! n = Some c0 /\ dc_type c0 = dc_type y).
    { intros n y Hy. simpl in Hy. destruct (decide (n = col)) as [->|Nn]; [rewrite lookup_insert in Hy; injection Hy as <-; eauto|]. rewrite lookup_insert_ne in Hy by congruence. eauto. }
    assert (A3 : forall n, is_Some (dt_cols t !! n) -> is_Some (dt_cols t' !! n)).
    { intros n Hn. simpl. destruct (decide (n = col)) as [->|Nn]; [rewrite lookup_insert; eauto|]. now rewrite lookup_insert_ne by congruence. }
    assert (G : grow (db_objs D !! key_of q) (Some (OTable t'))) by (rewrite X1; repeat split; auto).
    assert (GD : grows D (set_obj (key_of q) (Some (OTable t')) D)).
    { split; [reflexivity|]. intros k'. destruct (decide (k' = key_of q)) as [->|Nk]; [rewrite set_obj_lookup; exact G|]. rewrite set_obj_lookup_ne by congruence. apply grow_refl. }
    apply db_ok_set; auto. split.
    + intros n y Hy. destruct (A2 n y Hy) as (c0 & H0 & <-). eapply grow_types; [exact GD|exact (O1 n c0 H0)].
    + intros n k Hk. destruct (O2 n k Hk). split; [eapply grow_fk; eauto|]. intros z Iz. apply A3. auto.
  - destruct (db_objs D !! key_of q) as [[|ms cm|]|] eqn:X1; try discriminate. injection X as <-. destruct (HD _ _ X1) as [O S].
    assert (G : grow (db_objs D !! key_of q) (Some (OStruct ms (norm_comment c)))) by (rewrite X1; reflexivity).
    apply db_ok_set; auto. eapply (grow_obj D); [|exact O].
    split; [reflexivity|]. intros k'. destruct (decide (k' = key_of q)) as [->|Nk]; [rewrite set_obj_lookup; exact G|]. rewrite set_obj_lookup_ne by congruence. apply grow_refl.
  - apply upd_table_step in X as (t & t' & X1 & X2 & ->). injection X2 as <-. destruct (HD _ _ X1) as [[O1 O2] S].
    assert (G : grow (db_objs D !! key_of q) (Some (OTable (DbTab (dt_cols t) (dt_pk t) (dt_cons t) (norm_comment (Some c)))))).
    { rewrite X1. simpl. repeat split; simpl; eauto. }
    apply db_ok_set; auto. eapply (grow_obj D); [|split; [exact O1|exact O2]].
    split; [reflexivity|]. intros k'. destruct (decide (k' = key_of q)) as [->|Nk]; [rewrite set_obj_lookup; exact G|]. rewrite set_obj_lookup_ne by congruence. apply grow_refl.
  - injection X as <-. split; [exact HD|apply grows_refl].
Qed.
Lemma needs_refs s D : creation s -> needs s D -> refs_ok s D.
Proof. destruct s; simpl; tauto. Qed.

(** what a statement provides *)
Lemma enum_gives E q vs D D1 : exec E (SCreateEnum q vs) D = Some D1 -> type_exists D1 q.
Proof.
  cbn [exec]. destruct (no_dup vs); [|discriminate]. intros X. apply create_obj_step in X as (-> & _). eexists. split; [apply set_obj_lookup|reflexivity].
Qed.
Lemma struct_gives E q ms D D1 : exec E (SCreateStruct q ms) D = Some D1 -> type_exists D1 q.
Proof.
  cbn [exec]. destruct (no_dup (map fst ms)); [|discriminate]. intros X. apply create_obj_step in X as (-> & _). eexists. split; [apply set_obj_lookup|reflexivity].
Qed.
Definition table_with (D : db) (q : qid) (pk : list string) (cols : list string) : Prop :=
  exists t, db_objs D !! key_of q = Some (OTable t) /\ dt_pk t = pk /\ forall c, In c cols -> is_Some (dt_cols t !! c).
Lemma table_gives E q cols pkn pk c D D1 : exec E (SCreateTable q cols pkn pk c) D = Some D1 -> table_with D1 q pk (map cd_name cols).
Proof.
  cbn [exec]. destruct (no_dup (map cd_name cols)) eqn:Nd; [|discriminate]. cbn [andb]. destruct (forallb _ pk); [|discriminate].
  intros X. apply create_obj_step in X as (-> & _). eexists. split; [apply set_obj_lookup|]. split; [reflexivity|]. simpl. intros x Hx.
  apply in_map_iff in Hx as (y & <- & Iy). exists (mean_coldef pk y). apply elem_of_list_to_map_1.
  - rewrite <- list_fmap_compose. apply no_dup_true in Nd. exact Nd.
  - apply elem_of_list_In, in_map_iff. exists y. auto.
Qed.
Lemma grow_table_with D D' q pk cols : grows D D' -> table_with D q pk cols -> table_with D' q pk cols.
Proof.
  intros G (t & H & P & C). destruct (grow_table D D' _ t G H) as (t' & H' & G1 & _ & G3 & _). exists t'. split; [exact H'|]. split; [congruence|]. auto.
Qed.

(** the needs of each statement are met by what came before *)
Definition provided (D0 : db) (l1 : list stmt) (s : stmt) : Prop :=
  forall D1, grows D0 D1 ->
    (forall q vs, In (SCreateEnum q vs) l1 -> type_exists D1 q) ->
    (forall q ms, In (SCreateStruct q ms) l1 -> type_exists D1 q) ->
    (forall q cols pkn pk c, In (SCreateTable q cols pkn pk c) l1 -> table_with D1 q pk (map cd_name cols)) ->
    needs s D1.

Theorem creation_runs E l D D' :
  db_ok D -> exec_all E l D = Some D' -> (forall s, In s l -> creation s) ->
  (forall l1 s l2, l = l1 ++ s :: l2 -> provided D l1 s) -> runs E l D D' /\ db_ok D' /\ grows D D'.
Proof.
  intros HD X HC HP.
  enough (G : forall l2 l1 D1, l = l1 ++ l2 -> exec_all E l2 D1 = Some D' -> db_ok D1 -> grows D D1 ->
     (forall q vs, In (SCreateEnum q vs) l1 -> type_exists D1 q) ->
     (forall q ms, In (SCreateStruct q ms) l1 -> type_exists D1 q) ->
     (forall q cols pkn pk c, In (SCreateTable q cols pkn pk c) l1 -> table_with D1 q pk (map cd_name cols)) ->
     runs E l2 D1 D' /\ db_ok D' /\ grows D D').
  { apply (G l [] D eq_refl X HD (grows_refl D)); intros; contradiction. }
  induction l2 as [|s l2 IH]; intros l1 D1 E1 X1 HD1 G1 H1 H2 H3.
  - injection X1 as <-. split; [reflexivity|]. auto.
  - assert (Hs : creation s) by (apply HC; rewrite E1; apply in_or_app; right; now left).
    assert (N := HP l1 s l2 E1 D1 G1 H1 H2 H3).
    cbn [exec_all] in X1. destruct (exec E s D1) as [D2|] eqn:X2; [|discriminate]. cbn [mbind option_bind] in X1.
    destruct (creation_step E s D1 D2 Hs X2 HD1 N) as [HD2 G2].
    destruct (IH (l1 ++ [s]) D2) as (R1 & R2 & R3).
    + rewrite <- app_assoc. exact E1.
    + exact X1.
    + exact HD2.
    + eapply grows_trans; eauto.
    + intros q vs Hin. apply in_app_or in Hin as [Hin|[->|[]]]; [eapply grow_type; eauto|eapply enum_gives; eauto].
    + intros q ms Hin. apply in_app_or in Hin as [Hin|[->|[]]]; [eapply grow_type; eauto|eapply struct_gives; eauto].
    + intros q cols pkn pk c Hin. apply in_app_or in Hin as [Hin|[->|[]]]; [eapply grow_table_with; eauto|eapply table_gives; eauto].
    + split; [|auto]. cbn [runs]. split; [now apply needs_refs|]. exists D2. auto.
Qed.
