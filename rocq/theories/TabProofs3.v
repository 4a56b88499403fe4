(** The statements generated for a pair of tables turn the source table into the target table. *)
From Verif Require Import PyStr QuoteModel ObjectDict ObjectDictSpec ObjectDictProofs Types Objects SqlAst Ddl Mutate DbSpec CatSpec DbLemmas TabProofs1 TabProofs2.
From stdpp Require Import gmap strings.
Open Scope list_scope.

Definition gcol (tb : dbtab) (n : string) : option dbcol := dt_cols tb !! n.
Definition rest (tb : dbtab) := (dt_pk tb, dt_cons tb, dt_comment tb).

Lemma deleted_inj a b : deleted a = deleted b -> a = b.
Proof. unfold deleted. simpl. now intros [= ->]. Qed.
Lemma deleted_neq a : deleted a <> a.
Proof.
  intros H. apply (f_equal String.length) in H. unfold deleted in H. simpl in H. lia.
Qed.

Lemma migrated_spec d a b : is_column_migrated d a b = true <-> migrates d a b.
Proof.
  unfold is_column_migrated, migrates. split.
  - destruct (col_eqb a b || type_eqb (c_type a) (c_type b)) eqn:E; [discriminate|].
    apply orb_false_iff in E as [_ E]. intros H. apply andb_true_iff in H as [H1 H2].
    split; [intros Et; apply type_eqb_eq in Et; congruence|]. split; [exact H1|].
    apply orb_true_iff in H2 as [H2|H2]; [apply orb_true_iff in H2 as [H2|H2]; auto|].
    destruct d; try discriminate; auto.
  - intros (N & H1 & H2).
    destruct (type_eqb (c_type a) (c_type b)) eqn:E; [apply type_eqb_eq in E; contradiction|].
    destruct (col_eqb a b) eqn:E2.
    { apply col_eqb_eq in E2. subst. contradiction. }
    simpl. rewrite H1. simpl. destruct H2 as [-> | [-> | [-> ->]]]; simpl; rewrite ?orb_true_r; reflexivity.
Qed.

Lemma rename_in_id n m l : ~ In n l -> rename_in n m l = l.
Proof.
  induction l as [|x l IH]; simpl; [reflexivity|]. intros H.
  destruct (String.eqb_spec x n); [subst; tauto|]. f_equal. apply IH. tauto.
Qed.
Lemma rename_constr_id n m k : ~ In n (own_cols k) -> rename_constr n m k = k.
Proof. destruct k; simpl; intros H; rewrite ?rename_in_id; auto. Qed.
Lemma rename_cons_id n m (ks : gmap string constr) :
  (forall x k, ks !! x = Some k -> ~ In n (own_cols k)) -> rename_constr n m <$> ks = ks.
Proof.
  intros H. apply map_eq. intros i. rewrite lookup_fmap. destruct (ks !! i) eqn:E; simpl; [|reflexivity].
  f_equal. apply rename_constr_id. eauto.
Qed.
Lemma filter_cons_id n (ks : gmap string constr) :
  (forall x k, ks !! x = Some k -> ~ In n (own_cols k)) -> filter (fun p => mentions n (snd p) = false) ks = ks.
Proof.
  intros H. apply map_eq. intros i. destruct (ks !! i) eqn:E.
  - apply map_filter_lookup_Some. split; [exact E|]. simpl. unfold mentions.
    destruct (str_in n (own_cols c)) eqn:M; [|reflexivity]. apply str_in_spec in M. exfalso. eapply H; eauto.
  - apply map_filter_lookup_None. now left.
Qed.

(** soft drop of one column *)
Lemma soft_exec E d c a tb c0 :
  d <> DMSSQL -> eng_rename E = true ->
  soft_drop_column d c = Ok a ->
  dt_cols tb !! c_name c = Some c0 -> def_name c0 = None ->
  dt_cols tb !! deleted (c_name c) = None -> ~ In (c_name c) (dt_pk tb) ->
  (forall x k, dt_cons tb !! x = Some k -> ~ In (c_name c) (own_cols k)) ->
  exists tb' c1, exec_action E a tb = Some tb' /\ rest tb' = rest tb /\ gcol tb' (c_name c) = None
     /\ gcol tb' (deleted (c_name c)) = Some c1 /\ def_name c1 = None
     /\ forall k, k <> c_name c -> k <> deleted (c_name c) -> gcol tb' k = gcol tb k.
Proof.
  intros Nd Er H Hc Hd Hn Hp Hk.
  assert (Hne := deleted_neq (c_name c)).
  assert (G : forall c1, def_name c1 = None ->
     exists tb' c1', Some (DbTab (<[deleted (c_name c) := c1]> (delete (c_name c) (dt_cols tb))) (rename_in (c_name c) (deleted (c_name c)) (dt_pk tb))
                       (rename_constr (c_name c) (deleted (c_name c)) <$> dt_cons tb) (dt_comment tb)) = Some tb'
     /\ rest tb' = rest tb /\ gcol tb' (c_name c) = None
     /\ gcol tb' (deleted (c_name c)) = Some c1' /\ def_name c1' = None
     /\ forall k, k <> c_name c -> k <> deleted (c_name c) -> gcol tb' k = gcol tb k).
  { intros c1 H1. eexists _, c1. split; [reflexivity|]. unfold rest, gcol. simpl.
    rewrite rename_in_id, rename_cons_id by assumption.
    split; [reflexivity|]. rewrite lookup_insert_ne, lookup_delete by exact Hne.
    split; [reflexivity|]. rewrite lookup_insert. split; [reflexivity|]. split; [exact H1|].
    intros k K1 K2. now rewrite lookup_insert_ne, lookup_delete_ne by congruence. }
  unfold soft_drop_column in H. destruct d; try congruence.
  1,2,4,5,6: injection H as <-; unfold exec_action; rewrite Er, Hc; cbn [negb mbind option_bind]; rewrite Hn; now apply G.
  destruct (column_def DMySQL c) as [cd|] eqn:Ec; simpl in H; [|discriminate]. injection H as <-.
  unfold exec_action. rewrite Hc. cbn [mbind option_bind cd_name]. rewrite Hn. cbn [is_none negb andb].
  apply G. unfold def_name, mean_coldef. cbn [dc_default cd_default].
  unfold column_def in Ec. destruct (type_str _); simpl in Ec; [|discriminate].
  destruct (mysql_comment _); simpl in Ec; [|discriminate]. injection Ec as <-. simpl.
  now destruct (c_default c).
Qed.

Definition soft_prog (d : dialect) (p : column * column) : list tact :=
  match soft_drop_column d (fst p) with Ok a => [TA a] | Err _ => [] end.
Lemma soft_phase E d (l : list (column * column)) tb :
  d <> DMSSQL -> eng_rename E = true ->
  base.NoDup (map (fun p => c_name (fst p)) l) ->
  (forall p, In p l -> exists a, soft_drop_column d (fst p) = Ok a) ->
  (forall p, In p l -> exists c, gcol tb (c_name (fst p)) = Some c /\ def_name c = None) ->
  (forall p, In p l -> gcol tb (deleted (c_name (fst p))) = None) ->
  (forall p, In p l -> ~ In (c_name (fst p)) (dt_pk tb)) ->
  (forall p x k, In p l -> dt_cons tb !! x = Some k -> ~ In (c_name (fst p)) (own_cols k)) ->
  (forall p q, In p l -> In q l -> c_name (fst p) <> deleted (c_name (fst q))) ->
  exists tb', run (tstep E) (concat (map (soft_prog d) l)) tb = Some tb' /\ rest tb' = rest tb
    /\ (forall p, In p l -> gcol tb' (c_name (fst p)) = None)
    /\ (forall p, In p l -> exists c, gcol tb' (deleted (c_name (fst p))) = Some c /\ def_name c = None)
    /\ (forall k, (forall p, In p l -> k <> c_name (fst p) /\ k <> deleted (c_name (fst p))) -> gcol tb' k = gcol tb k).
Proof.
  intros Nd Er. revert tb. induction l as [|p l IH]; intros tb W Hs Hc Hd Hp Hk Hx.
  - exists tb. simpl. repeat split; auto; contradiction.
  - simpl in W. apply NoDup_cons in W as [N W].
    assert (Np : forall q, In q l -> c_name (fst q) <> c_name (fst p)).
    { intros q Iq Eq. apply N. apply elem_of_list_In. apply in_map_iff. eauto. }
    destruct (Hs p (or_introl eq_refl)) as [a Ha].
    destruct (Hc p (or_introl eq_refl)) as (c0 & Hc0 & Hdf).
    destruct (soft_exec E d (fst p) a tb c0) as (tb1 & c1 & X1 & R1 & A1 & A2 & A3 & A4); auto.
    { apply Hd. now left. } { apply Hp. now left. } { intros x k. apply Hk. now left. }
    unfold rest in R1. injection R1 as R11 R12 R13.
    assert (Nx : forall q, In q l -> c_name (fst q) <> deleted (c_name (fst p)) /\ c_name (fst p) <> deleted (c_name (fst q))).
    { intros q Iq. split; apply Hx; simpl; auto. }
    destruct (IH tb1 W) as (tb2 & X2 & R2 & B1 & B2 & B3).
    + intros q Iq. apply Hs. now right.
    + intros q Iq. rewrite A4; [apply Hc; now right|now apply Np|]. now apply Nx.
    + intros q Iq. rewrite A4; [apply Hd; now right| |].
      * intros Eq. destruct (Nx q Iq). congruence.
      * intros Eq. apply deleted_inj in Eq. now apply (Np q).
    + intros q Iq. rewrite R11. apply Hp. now right.
    + intros q x k Iq. rewrite R12. apply Hk. now right.
    + intros q r Iq Ir. apply Hx; now right.
    + exists tb2. simpl. unfold soft_prog at 1. rewrite Ha. simpl. rewrite X1. simpl.
      split; [exact X2|]. split; [rewrite R2; unfold rest; now rewrite R11, R12, R13|].
      repeat split.
      * intros q [->|Iq]; [|now apply B1]. rewrite B3; [exact A1|]. intros r Ir. split.
        -- intros Eq. now apply (Np r).
        -- now apply Nx.
      * intros q [->|Iq]; [|now apply B2]. exists c1. split; [|exact A3]. rewrite B3; [exact A2|]. intros r Ir. split.
        -- intros Eq. destruct (Nx r Ir). congruence.
        -- intros Eq. apply deleted_inj in Eq. now apply (Np r).
      * intros k Hk'. rewrite B3; [|intros r Ir; apply Hk'; now right]. apply A4; apply (Hk' p (or_introl eq_refl)).
Qed.

(** adding columns *)
Lemma add_exec E d c cd tb :
  column_def d c = Ok cd -> col_wf c -> (In (c_name c) (dt_pk tb) -> c_nullable c = false) ->
  gcol tb (c_name c) = None ->
  exists tb', exec_action E (AAddColumn cd) tb = Some tb' /\ rest tb' = rest tb
     /\ gcol tb' (c_name c) = Some (created d c)
     /\ forall k, k <> c_name c -> gcol tb' k = gcol tb k.
Proof.
  intros H W P N. unfold gcol in *. assert (En := column_def_name _ _ _ H).
  unfold exec_action. rewrite En, N. simpl. eexists. split; [reflexivity|]. split; [reflexivity|].
  simpl. rewrite (mean_created d _ c cd H W P), lookup_insert. split; [reflexivity|].
  intros k K. now rewrite lookup_insert_ne by congruence.
Qed.
Definition add_prog {A} (d : dialect) (f : A -> column) (p : A) : list tact :=
  match create_column d (f p) with Ok a => [TA a] | Err _ => [] end.
Lemma add_phase {A} E d (f : A -> column) l tb :
  base.NoDup (map (fun p => c_name (f p)) l) ->
  (forall p, In p l -> exists a, create_column d (f p) = Ok a) ->
  (forall p, In p l -> col_wf (f p)) ->
  (forall p, In p l -> In (c_name (f p)) (dt_pk tb) -> c_nullable (f p) = false) ->
  (forall p, In p l -> gcol tb (c_name (f p)) = None) ->
  exists tb', run (tstep E) (concat (map (add_prog d f) l)) tb = Some tb' /\ rest tb' = rest tb
    /\ forall k, gcol tb' k = match find_by (fun p => c_name (f p)) k l with Some x => Some (created d (f x)) | None => gcol tb k end.
Proof.
  intros W Ha Hw Hp Hn.
  apply (phase (tstep E) (fun p => c_name (f p)) gcol rest (add_prog d f) (fun p => Some (created d (f p)))
           (fun _ v => v = None)); [exact W| |exact Hn].
  intros x s' Ix Rx Hx _. destruct (Ha x Ix) as [a Ea]. unfold add_prog. rewrite Ea.
  unfold create_column in Ea. destruct (column_def d (f x)) as [cd|] eqn:Ec; simpl in Ea; [|discriminate].
  injection Ea as <-. injection Rx as R1 R2 R3.
  destruct (add_exec E d (f x) cd s') as (tb' & X & R & G1 & G2); auto.
  { rewrite R1. now apply Hp. }
  exists tb'. simpl. simpl in X. rewrite X. simpl. auto.
Qed.

(** dropping columns without a default constraint *)
Lemma drop_exec E n tb c :
  gcol tb n = Some c -> def_name c = None -> ~ In n (dt_pk tb) ->
  (eng_cascade E = true -> forall x k, dt_cons tb !! x = Some k -> ~ In n (own_cols k)) ->
  exists tb', exec_drop_column E n tb = Some tb' /\ rest tb' = rest tb /\ gcol tb' n = None
     /\ forall k, k <> n -> gcol tb' k = gcol tb k.
Proof.
  unfold gcol. intros H Hd Hp Hk. unfold exec_drop_column. rewrite H. simpl. rewrite Hd. simpl.
  eexists. split; [reflexivity|]. unfold rest. simpl.
  assert (str_in n (dt_pk tb) = false) as ->.
  { destruct (str_in n (dt_pk tb)) eqn:E0; [|reflexivity]. apply str_in_spec in E0. contradiction. }
  split.
  - destruct (eng_cascade E) eqn:Ec; [rewrite filter_cons_id by (intros x k Hx; exact (Hk eq_refl x k Hx))|]; reflexivity.
  - split; [apply lookup_delete|]. intros k K. now rewrite lookup_delete_ne by congruence.
Qed.

(** SQL Server: default constraints *)
Definition df_inv (tb : dbtab) : Prop :=
  forall n c x, gcol tb n = Some c -> def_name c = Some x -> x = df_name n.
Lemma df_name_inj a b : df_name a = df_name b -> a = b.
Proof. unfold df_name. simpl. now intros [= ->]. Qed.

Lemma drop_default_exec n tb c :
  df_inv tb -> gcol tb n = Some c -> def_name c = Some (df_name n) -> dt_cons tb !! df_name n = None ->
  exists tb', exec_drop_constraint (df_name n) tb = Some tb' /\ rest tb' = rest tb /\ df_inv tb'
     /\ gcol tb' n = Some (with_default None c)
     /\ forall k, k <> n -> gcol tb' k = gcol tb k.
Proof.
  unfold gcol. intros V H Hd Hk. unfold exec_drop_constraint. rewrite Hk.
  destruct (decide _) as [E0|E0].
  - exfalso. assert (X : filter (λ p : string * dbcol, def_name (snd p) = Some (df_name n)) (dt_cols tb) !! n = Some c).
    { apply map_filter_lookup_Some. now split. }
    rewrite E0, lookup_empty in X. discriminate.
  - eexists. split; [reflexivity|]. split; [reflexivity|].
    assert (L : forall k, ((fun c => if decide (def_name c = Some (df_name n)) then with_default None c else c) <$> dt_cols tb) !! k
                = if decide (k = n) then with_default None <$> dt_cols tb !! k else dt_cols tb !! k).
    { intros k. rewrite lookup_fmap. destruct (dt_cols tb !! k) as [ck|] eqn:Ek; simpl; [|now case_decide].
      case_decide as E1; case_decide as E2; try reflexivity.
      - exfalso. apply E2. apply (V k ck) in E1; [|exact Ek]. symmetry. now apply df_name_inj.
      - subst k. rewrite H in Ek. injection Ek as <-. contradiction. }
    split; [|split].
    + intros k ck x. unfold gcol. simpl. rewrite L. case_decide as E1.
      * subst k. rewrite H. simpl. intros [= <-]. discriminate.
      * apply V.
    + simpl. rewrite L, H. now rewrite decide_True.
    + intros k K. simpl. rewrite L. now rewrite decide_False.
Qed.
Lemma default_free_spec n tb : default_name_free n tb = true <-> forall k c, gcol tb k = Some c -> def_name c <> Some n.
Proof.
  unfold default_name_free, gcol. rewrite bool_decide_eq_true. split.
  - intros H k c Hk Hd.
    assert (X : filter (λ p : string * dbcol, def_name (snd p) = Some n) (dt_cols tb) !! k = Some c).
    { apply map_filter_lookup_Some. now split. }
    rewrite H, lookup_empty in X. discriminate.
  - intros H. apply map_eq. intros i. rewrite lookup_empty. apply map_filter_lookup_None. right.
    intros c Hc. simpl. eauto.
Qed.
Lemma add_default_exec E n e tb c :
  df_inv tb -> gcol tb n = Some c -> dc_default c = None -> dt_cons tb !! df_name n = None ->
  exists tb', exec_action E (AAddDefault (df_name n) e n) tb = Some tb' /\ rest tb' = rest tb /\ df_inv tb'
     /\ gcol tb' n = Some (with_default (Some (Some (df_name n), e)) c)
     /\ forall k, k <> n -> gcol tb' k = gcol tb k.
Proof.
  intros V H Hd Hk. unfold exec_action. rewrite Hk. simpl.
  assert (default_name_free (df_name n) tb = true) as ->.
  { apply default_free_spec. intros k c' Hc' Hx. assert (Y := V _ _ _ Hc' Hx). apply df_name_inj in Y. subst k.
    rewrite H in Hc'. injection Hc' as <-. unfold def_name in Hx. rewrite Hd in Hx. discriminate. }
  simpl. unfold upd_col. unfold gcol in H. rewrite H. simpl. rewrite Hd. simpl.
  eexists. split; [reflexivity|]. split; [reflexivity|]. split; [|split].
  - intros k ck x. unfold gcol. simpl. destruct (decide (k = n)) as [->|N].
    + rewrite lookup_insert. intros [= <-]. simpl. unfold def_name. simpl. now intros [= <-].
    + rewrite lookup_insert_ne by congruence. apply V.
  - unfold gcol. simpl. apply lookup_insert.
  - intros k K. unfold gcol. simpl. now rewrite lookup_insert_ne by congruence.
Qed.

Definition ms_prog (p : column * column) : list tact :=
  map TA (let sc := fst p in let sd := c_default sc in let td := c_default (snd p) in
    if os_eqb sd td then []
    else match sd with Some _ => [ADropConstraint (df_name (c_name sc))] | None => [] end
         ++ match td with Some e => [AAddDefault (df_name (c_name sc)) e (c_name sc)] | None => [] end).
Lemma ms_exec E p tb c :
  df_inv tb -> c_name (fst p) = c_name (snd p) ->
  gcol tb (c_name (fst p)) = Some c -> dc_default c = want_default DMSSQL (fst p) ->
  dt_cons tb !! df_name (c_name (fst p)) = None ->
  exists tb', run (tstep E) (ms_prog p) tb = Some tb' /\ rest tb' = rest tb /\ df_inv tb'
     /\ gcol tb' (c_name (fst p)) = Some (with_default (want_default DMSSQL (snd p)) c)
     /\ forall k, k <> c_name (fst p) -> gcol tb' k = gcol tb k.
Proof.
  destruct p as [a b]. cbn [fst snd]. intros V En Hc Hd Hk. unfold ms_prog. cbn [fst snd].
  destruct (eqb_spec_os (c_default a) (c_default b)) as [Eq|Eq].
  { exists tb. simpl. split; [reflexivity|]. split; [reflexivity|]. split; [exact V|]. split; [|auto].
    rewrite Hc. f_equal. destruct c; unfold with_default. simpl in *. f_equal. rewrite Hd. unfold want_default. now rewrite Eq, En. }
  rewrite map_app, run_app.
  assert (S1 : exists tb1, run (tstep E) (map TA match c_default a with Some _ => [ADropConstraint (df_name (c_name a))] | None => [] end) tb = Some tb1
     /\ rest tb1 = rest tb /\ df_inv tb1 /\ gcol tb1 (c_name a) = Some (with_default None c)
     /\ forall k, k <> c_name a -> gcol tb1 k = gcol tb k).
  { destruct (c_default a) as [e|] eqn:Ea; simpl.
    - destruct (drop_default_exec (c_name a) tb c) as (tb1 & X & R & V1 & G1 & G2); auto.
      { unfold def_name. rewrite Hd. unfold want_default. rewrite Ea. reflexivity. }
      exists tb1. rewrite X. simpl. auto.
    - exists tb. split; [reflexivity|]. split; [reflexivity|]. split; [exact V|]. split; [|auto].
      rewrite Hc. f_equal. destruct c; unfold with_default. simpl in *. f_equal. rewrite Hd. unfold want_default. now rewrite Ea. }
  destruct S1 as (tb1 & X1 & R1 & V1 & G1 & F1). rewrite X1. cbn [mbind option_bind].
  destruct (c_default b) as [e|] eqn:Eb; simpl.
  - destruct (add_default_exec E (c_name a) e tb1 (with_default None c)) as (tb2 & X & R & V2 & G2 & F2); auto.
    { unfold rest in R1. injection R1 as _ -> _. exact Hk. }
    exists tb2. simpl in X. rewrite X. simpl. split; [reflexivity|]. split; [congruence|]. split; [exact V2|].
    split; [rewrite G2; f_equal; unfold want_default; rewrite Eb, En; reflexivity|].
    intros k K. now rewrite F2, F1.
  - exists tb1. split; [reflexivity|]. split; [exact R1|]. split; [exact V1|]. split; [|exact F1].
    rewrite G1. f_equal. unfold want_default. now rewrite Eb.
Qed.
