(** Executing the statements for a pair of tables (main lemma). *)
From Verif Require Import PyStr QuoteModel ObjectDict ObjectDictSpec ObjectDictProofs Types Objects SqlAst Ddl Mutate DbSpec CatSpec DbLemmas EqProofs TabProofs1 TabProofs2 TabProofs3 TabProofs4.
From stdpp Require Import gmap strings.
Open Scope list_scope.

Lemma find_by_ext {A K} `{EqDecision K} (f g : A -> K) k l : (forall x, In x l -> f x = g x) -> find_by f k l = find_by g k l.
Proof.
  induction l as [|x l IH]; simpl; [reflexivity|]. intros H. rewrite (H x) by auto.
  case_decide; [reflexivity|]. apply IH. auto.
Qed.

Lemma norm_norm c : norm_comment (norm_comment c) = norm_comment c.
Proof. destruct c as [x|]; simpl; [|reflexivity]. destruct (String.eqb x "") eqn:E; simpl; [reflexivity|]. now rewrite E. Qed.

(** the effect of a comment change *)
Lemma comment_change_some a b x : comment_change a b = Some x -> x = b.
Proof.
  unfold comment_change. destruct b as [y|].
  - destruct (os_eqb a (Some y)); congruence.
  - destruct a; congruence.
Qed.
Lemma comment_change_none a b : comment_change a b = None -> a = b.
Proof.
  unfold comment_change. destruct b as [y|].
  - destruct (os_eqb a (Some y)) eqn:E; [|discriminate]. intros _. now apply os_eqb_eq.
  - destruct a; congruence.
Qed.

#[global] Instance dialect_eq_dec : EqDecision dialect.
Proof. solve_decision. Defined.

Section Main.
  Variables (d : dialect) (s t : table).
  Hypothesis Sh : shape d s t.
  Hypothesis Ws : tab_wf d s.
  Hypothesis Wt : tab_wf d t.
  Hypothesis Cp : tab_compat d s t.
  Let E := engine_of d.
  Let fs k := find_by c_name k (t_columns s).
  Let ft k := find_by c_name k (t_columns t).
  Let nodup_s : base.NoDup (map c_name (t_columns s)) := tw_cols _ _ Ws.
  Let nodup_t : base.NoDup (map c_name (t_columns t)) := tw_cols _ _ Wt.
  Notation "'mig' p" := (is_column_migrated d (fst p) (snd p)) (at level 10).

  Lemma common_in p : In p (common s t) -> In (fst p) (t_columns s) /\ In (snd p) (t_columns t) /\ c_name (fst p) = c_name (snd p).
  Proof. destruct p. apply intersection_same. Qed.
  Lemma common_find k : find_by (fun p => c_name (fst p)) k (common s t)
    = match fs k, ft k with Some x, Some y => Some (x, y) | _, _ => None end.
  Proof. apply intersection_find. exact nodup_s. Qed.
  Lemma common_nodup : base.NoDup (map (fun p => c_name (fst p)) (common s t)).
  Proof. apply intersection_keys_nodup. exact nodup_s. Qed.
  Lemma mig_in p : In p (migrated d s t) -> In p (common s t) /\ migrates d (fst p) (snd p).
  Proof. unfold migrated. rewrite filter_In. rewrite migrated_spec. tauto. Qed.
  Lemma mig_find k : find_by (fun p => c_name (fst p)) k (migrated d s t)
    = match fs k, ft k with Some x, Some y => if is_column_migrated d x y then Some (x, y) else None | _, _ => None end.
  Proof.
    unfold migrated. rewrite (find_by_filter_nodup) by exact common_nodup.
    rewrite common_find. destruct (fs k), (ft k); reflexivity.
  Qed.

  Lemma nodup_find_t b : In b (t_columns t) -> ft (c_name b) = Some b.
  Proof. intros H. apply find_by_in; [exact nodup_t|exact H]. Qed.
  Lemma nodup_find_s a : In a (t_columns s) -> fs (c_name a) = Some a.
  Proof. intros H. apply find_by_in; [exact nodup_s|exact H]. Qed.
  Lemma fs_none_t k : ft k = None <-> ~ In k (col_names t).
  Proof. apply find_by_none. Qed.
  Lemma fs_none_s k : fs k = None <-> ~ In k (col_names s).
  Proof. apply find_by_none. Qed.
  Lemma want_cons_in ks x k : want_cons ks !! x = Some k -> In k ks /\ is_alter k = true /\ k_name k = x.
  Proof.
    unfold want_cons. rewrite lookup_list_to_map.
    destruct (find_by k_name x (List.filter is_alter ks)) as [k'|] eqn:Ek; simpl; [|discriminate].
    intros [= <-]. apply find_by_some in Ek as [I <-]. apply filter_In in I. tauto.
  Qed.

  Variable tb : dbtab.
  Hypothesis L : tab_like d s t tb.
  Let ty (k : string) : sqltype := match gcol tb k with Some c => dc_type c | None => TBool end.

  Lemma like_cols k : gcol tb k = match fs k with Some a => Some (with_type (ty k) (want_col d a)) | None => None end.
  Proof.
    destruct (fs k) as [a|] eqn:Ea.
    - apply find_by_some in Ea as [I <-]. destruct (tl_cols _ _ _ _ L a I) as (x & Hx & _).
      unfold ty. unfold gcol. rewrite Hx. reflexivity.
    - destruct (gcol tb k) eqn:G; [|reflexivity]. exfalso. apply fs_none_s in Ea. apply Ea.
      apply (tl_dom _ _ _ _ L). unfold gcol in G. rewrite G. eauto.
  Qed.
  Lemma like_type k a b : fs k = Some a -> ft k = Some b -> c_type a = c_type b -> ty k = c_type a.
  Proof.
    intros Ea Eb Et. apply find_by_some in Ea as [Ia <-]. apply find_by_some in Eb as [Ib Eb].
    destruct (tl_cols _ _ _ _ L a Ia) as (x & Hx & Hy). unfold ty, gcol. rewrite Hx. simpl. eauto.
  Qed.
  Lemma want_def_name c x : c_default c = Some x -> d = DMSSQL -> def_name (want_col d c) = Some (df_name (c_name c)).
  Proof. intros H ->. unfold def_name, want_col, want_default. simpl. rewrite H. reflexivity. Qed.
  Lemma want_def_none c : d <> DMSSQL -> want_default d c = None \/ exists e, want_default d c = Some (None, e).
  Proof. intros N. unfold want_default. destruct d; try congruence; destruct (c_default c); eauto. Qed.

  Definition def0 (k : string) (a : column) : option (option string * string) :=
    match d, ft k with DMSSQL, Some b => want_default d b | _, _ => want_default d a end.
  Definition col0 (k : string) : option dbcol :=
    match fs k with
    | None => None
    | Some a => Some (DbCol (ty k) (c_nullable a) (def0 k a) (c_identity a) (want_comment d (c_desc a)))
    end.
  Definition cons_s := want_cons (t_constraints s).

  Lemma cons_no_df x k n : d = DMSSQL -> cons_s !! x = Some k -> x <> df_name n.
  Proof. intros Hd H. apply want_cons_in in H as (I1 & _ & <-). now apply (tw_df _ _ Ws Hd). Qed.

  Lemma pre_phase : exists tb0, run (tstep E) (pre_acts d s t) tb = Some tb0
    /\ rest tb0 = (t_pk t, cons_s, want_comment d (t_desc s)) /\ forall k, gcol tb0 k = col0 k.
  Proof.
    assert (R0 : rest tb = (t_pk t, cons_s, want_comment d (t_desc s))).
    { unfold rest. rewrite (tl_pk _ _ _ _ L), (tl_cons _ _ _ _ L), (tl_comment _ _ _ _ L), (tc_pk _ _ _ Cp). reflexivity. }
    unfold pre_acts. destruct (decide (d = DMSSQL)) as [Hd|Hd].
    - rewrite Hd. rewrite <- Hd.
      destruct (phase_inv (tstep E) (fun p => c_name (fst p)) gcol rest df_inv ms_prog
         (fun p => Some (DbCol (ty (c_name (fst p))) (c_nullable (fst p)) (want_default d (snd p)) (c_identity (fst p)) (want_comment d (c_desc (fst p)))))
         (fun p v => v = Some (with_type (ty (c_name (fst p))) (want_col d (fst p)))) (common s t) tb common_nodup) as (tb0 & X & R & _ & G).
      + intros n c x Hc Hx. rewrite like_cols in Hc. destruct (fs n) as [a|] eqn:Ea; [|discriminate].
        apply find_by_some in Ea as [_ <-]. injection Hc as <-. unfold def_name in Hx. simpl in Hx.
        rewrite Hd in Hx. unfold want_default in Hx. destruct (c_default a); simpl in Hx; [|discriminate]. now injection Hx as <-.
      + intros p s' Ip Rp Vp Hp _. destruct (common_in p Ip) as (I1 & I2 & En).
        destruct (ms_exec E p s' _ Vp En Hp) as (s'' & X & R & V & G1 & G2).
        * simpl. now rewrite Hd.
        * rewrite R0 in Rp. unfold rest in Rp. injection Rp as _ Rc _. rewrite Rc.
          destruct (cons_s !! _) eqn:Ec; [|reflexivity]. apply (cons_no_df _ _ (c_name (fst p)) Hd) in Ec. congruence.
        * exists s''. split; [exact X|]. split; [exact R|]. split; [exact V|]. split; [|exact G2].
          rewrite G1. rewrite <- Hd. reflexivity.
      + intros p Ip. rewrite like_cols. destruct (common_in p Ip) as (I1 & _ & _). now rewrite nodup_find_s.
      + exists tb0. split; [exact X|]. split; [congruence|]. intros k. rewrite G, common_find. unfold col0, def0.
        rewrite like_cols. destruct (fs k) as [a|] eqn:Ea; [|reflexivity].
        apply find_by_some in Ea as [_ <-]. destruct (ft (c_name a)); rewrite Hd; reflexivity.
    - exists tb. assert ((match d with DMSSQL => concat (map ms_prog (common s t)) | _ => [] end) = []) as ->.
      { destruct d; congruence. }
      split; [reflexivity|]. split; [exact R0|]. intros k. rewrite like_cols. unfold col0, def0.
      destruct (fs k); [|reflexivity]. unfold with_type, want_col. simpl. destruct d; congruence.
  Qed.

  Lemma mig_facts p : In p (migrated d s t) ->
    d <> DMSSQL /\ c_identity (fst p) = false /\ c_identity (snd p) = false
    /\ fs (deleted (c_name (fst p))) = None /\ ft (deleted (c_name (fst p))) = None
    /\ ~ In (c_name (fst p)) (t_pk t)
    /\ (forall x k, cons_s !! x = Some k -> ~ In (c_name (fst p)) (own_cols k))
    /\ (d = DPg -> c_desc (fst p) = c_desc (snd p) -> want_comment d (c_desc (snd p)) = None).
  Proof.
    intros H. destruct (mig_in p H) as [H1 H2]. destruct (common_in p H1) as (I1 & I2 & En).
    destruct (tc_mig _ _ _ Cp (fst p) (snd p) I1 I2 En H2) as (A1 & A2 & A3 & A4 & A5 & A6 & A7 & A8).
    rewrite (tc_pk _ _ _ Cp) in A6.
    repeat split; auto.
    - now apply fs_none_s.
    - now apply fs_none_t.
    - intros x k Hk. apply want_cons_in in Hk as (Ik & Ka & _). eauto.
  Qed.
  Definition mig_at (k : string) : bool :=
    match fs k, ft k with Some x, Some y => is_column_migrated d x y | _, _ => false end.
  Lemma mig_at_in p : In p (migrated d s t) -> mig_at (c_name (fst p)) = true.
  Proof.
    intros H. destruct (mig_in p H) as [H1 H2]. destruct (common_in p H1) as (I1 & I2 & En).
    unfold mig_at. rewrite (nodup_find_s _ I1). rewrite En, (nodup_find_t _ I2). now apply migrated_spec.
  Qed.
  Lemma mig_nodup : base.NoDup (map (fun p => c_name (fst p)) (migrated d s t)).
  Proof. apply nodup_map_filter. exact common_nodup. Qed.
  Lemma mig_at_find k : mig_at k = true -> exists a b, fs k = Some a /\ ft k = Some b /\ In (a, b) (migrated d s t) /\ c_name a = k.
  Proof.
    unfold mig_at. intros H. assert (M := mig_find k).
    destruct (fs k) as [a|] eqn:Ea; [|discriminate]. destruct (ft k) as [b|]; [|discriminate]. rewrite H in M.
    apply find_by_some in M as [M1 M2]. exists a, b. auto.
  Qed.

  Lemma new_find k : find_by c_name k (new_cols s t) = match fs k with Some _ => None | None => ft k end.
  Proof. apply difference_find. exact nodup_t. Qed.
  Lemma old_find k : find_by c_name k (old_cols s t) = match ft k with Some _ => None | None => fs k end.
  Proof. apply difference_find. exact nodup_s. Qed.

  (* after renaming *)
  Lemma soft_phase_main tb0 :
    rest tb0 = (t_pk t, cons_s, want_comment d (t_desc s)) -> (forall k, gcol tb0 k = col0 k) ->
    exists tb1, run (tstep E) (concat (map (soft_prog d) (migrated d s t))) tb0 = Some tb1
      /\ rest tb1 = rest tb0
      /\ (forall p, In p (migrated d s t) -> gcol tb1 (c_name (fst p)) = None)
      /\ (forall p, In p (migrated d s t) -> exists c, gcol tb1 (deleted (c_name (fst p))) = Some c /\ def_name c = None)
      /\ (forall k, (forall p, In p (migrated d s t) -> k <> c_name (fst p) /\ k <> deleted (c_name (fst p))) -> gcol tb1 k = col0 k).
  Proof.
    intros R G. destruct (decide (d = DMSSQL)) as [Hd|Hd].
    - destruct (migrated d s t) as [|p l] eqn:M.
      + exists tb0. simpl. repeat split; auto; contradiction.
      + destruct (mig_facts p) as (N & _); [rewrite M; now left|contradiction].
    - injection R as R1 R2 R3.
      destruct (soft_phase E d (migrated d s t) tb0) as (tb1 & X & Rx & A1 & A2 & A3); auto.
      + unfold E. destruct d; try congruence; reflexivity.
      + exact mig_nodup.
      + exact (sh_soft _ _ _ Sh).
      + intros p Hp. destruct (mig_in p Hp) as [H1 _]. destruct (common_in p H1) as (I1 & _ & _).
        rewrite G. unfold col0. rewrite (nodup_find_s _ I1). eexists. split; [reflexivity|].
        unfold def_name. simpl. unfold def0.
        assert ((match d with DMSSQL => match ft (c_name (fst p)) with Some b => want_default d b | None => want_default d (fst p) end | _ => want_default d (fst p) end) = want_default d (fst p)) as Hq.
        { destruct d; congruence. }
        rewrite Hq. destruct (want_def_none (fst p) Hd) as [-> | [e ->]]; reflexivity.
      + intros p Hp. rewrite G. unfold col0. destruct (mig_facts p Hp) as (_ & _ & _ & -> & _). reflexivity.
      + intros p Hp. rewrite R1. now apply mig_facts.
      + intros p x k Hp. rewrite R2. now apply mig_facts.
      + intros p q Hp Hq Eq. destruct (mig_in p Hp) as [H1 _]. destruct (common_in p H1) as (I1 & _ & _).
        destruct (mig_facts q Hq) as (_ & _ & _ & Hn & _). rewrite <- Eq, (nodup_find_s _ I1) in Hn. discriminate.
      + exists tb1. repeat split; auto. intros k Hk. rewrite A3 by exact Hk. apply G.
  Qed.

  (* after adding and hard-dropping *)
  Definition col3 (k : string) : option dbcol :=
    match fs k, ft k with
    | Some a, Some b => if is_column_migrated d a b then Some (created d b) else col0 k
    | None, Some b => Some (created d b)
    | _, None => col0 k
    end.
  Lemma find_snd k : find_by (fun p => c_name (snd p)) k (migrated d s t) = find_by (fun p => c_name (fst p)) k (migrated d s t).
  Proof. apply find_by_ext. intros p Hp. destruct (mig_in p Hp) as [H1 _]. now destruct (common_in p H1) as (_ & _ & ->). Qed.
  Lemma cols3_main tb0 :
    rest tb0 = (t_pk t, cons_s, want_comment d (t_desc s)) -> (forall k, gcol tb0 k = col0 k) ->
    exists tb3, run (tstep E) (concat (map (soft_prog d) (migrated d s t)) ++ concat (map (add_prog d snd) (migrated d s t))
                  ++ concat (map (add_prog d (fun c => c)) (new_cols s t)) ++ concat (map hard_prog (migrated d s t))) tb0 = Some tb3
      /\ rest tb3 = rest tb0 /\ forall k, gcol tb3 k = col3 k.
  Proof.
    intros R G. destruct (soft_phase_main tb0 R G) as (tb1 & X1 & R1 & A1 & A2 & A3).
    assert (P1 : dt_pk tb1 = t_pk t) by (rewrite R in R1; now injection R1 as -> _ _).
    assert (Hsnd : map (fun p => c_name (snd p)) (migrated d s t) = map (fun p => c_name (fst p)) (migrated d s t)).
    { apply map_ext_in. intros p Hp. destruct (mig_in p Hp) as [H1 _]. now destruct (common_in p H1) as (_ & _ & ->). }
    destruct (add_phase E d snd (migrated d s t) tb1) as (tb2 & X2 & R2 & B).
    - rewrite Hsnd. exact mig_nodup.
    - exact (sh_mcreate _ _ _ Sh).
    - intros p Hp. destruct (mig_in p Hp) as [H1 _]. destruct (common_in p H1) as (_ & I2 & _). now apply (tw_col _ _ Wt).
    - intros p Hp. rewrite P1. destruct (mig_in p Hp) as [H1 _]. destruct (common_in p H1) as (_ & I2 & _). now apply (tw_pk_null _ _ Wt).
    - intros p Hp. destruct (mig_in p Hp) as [H1 _]. destruct (common_in p H1) as (_ & _ & <-). now apply A1.
    - assert (P2 : dt_pk tb2 = t_pk t).
      { rewrite R1, R in R2. now injection R2 as -> _ _. }
      assert (New : forall c, In c (new_cols s t) -> In c (t_columns t) /\ ~ In (c_name c) (col_names s)).
      { intros c Hc. apply difference_in in Hc. exact Hc. }
      destruct (add_phase E d (fun c => c) (new_cols s t) tb2) as (tb3 & X3 & R3 & C).
      + apply nodup_map_filter. exact nodup_t.
      + exact (sh_create _ _ _ Sh).
      + intros c Hc. apply New in Hc as [Hc _]. now apply (tw_col _ _ Wt).
      + intros c Hc. apply New in Hc as [Hc _]. rewrite P2. now apply (tw_pk_null _ _ Wt).
      + intros c Hc. apply New in Hc as [Hc Hn]. apply fs_none_s in Hn. rewrite B, find_snd, mig_find, Hn.
        rewrite A3; [unfold col0; now rewrite Hn|].
        intros p Hp. split.
        * intros Eq. destruct (mig_in p Hp) as [H1 _]. destruct (common_in p H1) as (I1 & _ & _).
          rewrite Eq, (nodup_find_s _ I1) in Hn. discriminate.
        * intros Eq. destruct (mig_facts p Hp) as (_ & _ & _ & _ & Hf & _).
          rewrite <- Eq, (nodup_find_t _ Hc) in Hf. discriminate.
      + assert (Dk : forall p, In p (migrated d s t) -> exists c, gcol tb3 (deleted (c_name (fst p))) = Some c /\ def_name c = None).
        { intros p Hp. destruct (mig_facts p Hp) as (_ & _ & _ & Hs & Hf & _).
          rewrite C, new_find. rewrite Hs, Hf. rewrite B, find_snd, mig_find. rewrite Hs. now apply A2. }
        destruct (phase (tstep E) (fun p => deleted (c_name (fst p))) gcol rest hard_prog (fun _ => None)
                    (fun _ v => exists c, v = Some c /\ def_name c = None) (migrated d s t) tb3) as (tb4 & X4 & R4 & D).
        * rewrite <- (map_map (fun p => c_name (fst p)) deleted). apply NoDup_fmap_2; [exact deleted_inj|exact mig_nodup].
        * intros p s' Ip Rp (c & Hc & Hd) _. unfold hard_prog, hard_drop_column. simpl.
          assert (Rs : rest s' = (t_pk t, cons_s, want_comment d (t_desc s))) by congruence.
          injection Rs as Q1 Q2 Q3.
          destruct (drop_exec E (deleted (c_name (fst p))) s' c Hc Hd) as (s'' & Xs & Rs & G1 & G2).
          -- rewrite Q1. intros Hin. apply (tw_pk _ _ Wt) in Hin. destruct (mig_facts p Ip) as (_ & _ & _ & _ & Hf & _).
             apply fs_none_t in Hf. contradiction.
          -- intros _ x k. rewrite Q2. intros Hk Hin. apply want_cons_in in Hk as (Ik & _ & _).
             apply (tw_own _ _ Ws k _ Ik) in Hin. destruct (mig_facts p Ip) as (_ & _ & _ & Hf & _).
             apply fs_none_s in Hf. contradiction.
          -- exists s''. rewrite Xs. simpl. auto.
        * exact Dk.
        * exists tb4. rewrite !run_app, X1. cbn [mbind option_bind]. rewrite run_app, X2. cbn [mbind option_bind].
          rewrite run_app, X3. cbn [mbind option_bind]. split; [exact X4|]. split; [congruence|].
          intros k. rewrite D.
          destruct (find_by (fun p => deleted (c_name (fst p))) k (migrated d s t)) as [p|] eqn:Ek.
          -- apply find_by_some in Ek as [Ip <-]. destruct (mig_facts p Ip) as (_ & _ & _ & Hs & Hf & _).
             unfold col3, col0. now rewrite Hs, Hf.
          -- assert (Nk : forall p, In p (migrated d s t) -> k <> deleted (c_name (fst p))).
             { intros p Hp Eq. apply find_by_none in Ek. apply Ek. apply in_map_iff. exists p. auto. }
             rewrite C, new_find.
             unfold col3. destruct (fs k) as [a|] eqn:Ea, (ft k) as [b|] eqn:Eb; try reflexivity.
             ++ rewrite B, find_snd, mig_find, Ea, Eb. destruct (is_column_migrated d a b) eqn:Em; [reflexivity|].
                apply A3. intros p Hp. split; [|now apply Nk]. intros ->.
                apply mig_at_in in Hp. unfold mig_at in Hp. rewrite Ea, Eb in Hp. congruence.
             ++ rewrite B, find_snd, mig_find, Ea, Eb. apply A3. intros p Hp. split; [|now apply Nk]. intros ->.
                apply mig_at_in in Hp. unfold mig_at in Hp. rewrite Ea, Eb in Hp. congruence.
             ++ rewrite B, find_snd, mig_find, Ea. apply A3. intros p Hp. split; [|now apply Nk]. intros ->.
                apply mig_at_in in Hp. unfold mig_at in Hp. rewrite Ea in Hp. congruence.
  Qed.

  (* alterations *)
  Definition midc (a b : column) : option string :=
    match d with
    | DMySQL => want_comment d (c_desc b)
    | _ => if is_column_migrated d a b then inline_comment d (c_desc b) else want_comment d (c_desc a)
    end.
  Definition mid (a b : column) : dbcol :=
    DbCol (c_type b) (c_nullable b) (want_default d b) (c_identity b) (midc a b).
  Definition col4 (k : string) : option dbcol :=
    match fs k, ft k with
    | Some a, Some b => Some (mid a b)
    | None, Some b => Some (created d b)
    | _, None => col0 k
    end.
  Lemma alter_phase tb3 :
    dt_pk tb3 = t_pk t -> (forall k, gcol tb3 k = col3 k) ->
    exists tb4, run (tstep E) (concat (map (alter_prog d) (common s t))) tb3 = Some tb4
      /\ rest tb4 = rest tb3 /\ forall k, gcol tb4 k = col4 k.
  Proof.
    intros Pk G.
    destruct (phase (tstep E) (fun p => c_name (fst p)) gcol rest (alter_prog d) (fun p => Some (mid (fst p) (snd p)))
                (fun p v => v = col3 (c_name (fst p))) (common s t) tb3 common_nodup) as (tb4 & X & R & A).
    - intros p s' Ip Rp Hp _. destruct (common_in p Ip) as (I1 & I2 & En).
      injection Rp as Q1 Q2 Q3.
      destruct (sh_alter _ _ _ Sh p Ip) as [acts Ha].
      destruct (tc_col _ _ _ Cp _ _ I1 I2 En) as [Ic Dc].
      assert (Fa := nodup_find_s _ I1). assert (Fb := nodup_find_t _ I2).
      assert (Hc : exists c, gcol s' (c_name (snd p)) = Some c /\ col_pre d (fst p) (snd p) c
                   /\ new_default d c (snd p) = want_default d (snd p) /\ new_comment d c (snd p) = midc (fst p) (snd p)).
      { rewrite <- En. rewrite Hp. unfold col3. rewrite Fa. rewrite En, Fb.
        destruct (is_column_migrated d (fst p) (snd p)) eqn:Em.
        - eexists. split; [reflexivity|].
          assert (Ip' : In p (migrated d s t)) by (apply filter_In; split; [exact Ip|exact Em]).
          destruct (mig_facts p Ip') as (Nd & J1 & J2 & _).
          split; [|split].
          + constructor; simpl; auto; [congruence|]. intros Hd _ _. unfold inline_comment. now rewrite Hd.
          + unfold new_default. destruct d; congruence || reflexivity.
          + unfold new_comment, midc. rewrite Em. simpl. destruct d; reflexivity.
        - unfold col0. rewrite <- En, Fa. eexists. split; [reflexivity|].
          assert (Hd0 : d <> DMSSQL -> def0 (c_name (fst p)) (fst p) = want_default d (fst p)).
          { intros Nd. unfold def0. destruct d; congruence. }
          split; [|split].
          + constructor; simpl; auto.
            * intros Et. rewrite (like_type (c_name (fst p)) (fst p) (snd p)); auto. now rewrite En.
            * intros Nd Ed. rewrite (Hd0 Nd). now apply Dc.
          + unfold new_default. simpl. unfold def0. rewrite En, Fb. destruct d; reflexivity.
          + unfold new_comment, midc. rewrite Em. simpl. destruct d; reflexivity. }
      destruct Hc as (c & Hc & Hpre & Hnd & Hnc).
      assert (M := mutate_column_exec E d (fst p) (snd p) acts s' c (fun G => proj2 (proj2 (tc_general _ _ _ Cp G) _ _ I1 I2 En)) Ha En (tw_col _ _ Ws _ I1) (tw_col _ _ Wt _ I2) Ic).
      specialize (M (fun H => tw_pk_null _ _ Wt _ I2 (eq_ind _ (fun l => In _ l) H _ (eq_trans Q1 Pk))) Hpre Hc).
      eexists. split.
      { unfold alter_prog. rewrite Ha. simpl. rewrite run_TA. exact M. }
      split; [reflexivity|]. unfold gcol, put. simpl. rewrite En, lookup_insert. split.
      + unfold mid. now rewrite Hnd, Hnc.
      + intros k K. now rewrite lookup_insert_ne by congruence.
    - intros p Ip. apply G.
    - exists tb4. split; [exact X|]. split; [exact R|]. intros k. rewrite A, common_find. unfold col4.
      rewrite G. unfold col3. destruct (fs k), (ft k); reflexivity.
  Qed.

  (* drops *)
  Definition col5 (k : string) : option dbcol :=
    match ft k with
    | None => None
    | Some b => Some (match fs k with Some a => mid a b | None => created d b end)
    end.
  Lemma want_def_ms c x : d = DMSSQL -> fst <$> want_default d c = Some x -> x = Some (df_name (c_name c)).
  Proof. intros ->. unfold want_default. destruct (c_default c); simpl; congruence. Qed.
  Lemma def_name_ms (c : dbcol) (b : column) x :
    d = DMSSQL -> dc_default c = want_default d b -> def_name c = Some x -> x = df_name (c_name b).
  Proof.
    intros Hd H. unfold def_name. rewrite H, Hd. unfold want_default. destruct (c_default b); simpl; congruence.
  Qed.
  Lemma def_name_other (c : dbcol) (b : column) : d <> DMSSQL -> dc_default c = want_default d b -> def_name c = None.
  Proof.
    intros Hd H. unfold def_name. rewrite H. destruct (want_def_none b Hd) as [-> | [e ->]]; reflexivity.
  Qed.
  Lemma drop_phase tb4 :
    dt_pk tb4 = t_pk t -> dt_cons tb4 = cons_s -> (forall k, gcol tb4 k = col4 k) ->
    exists tb5, run (tstep E) (concat (map (drop_prog d) (old_cols s t))) tb4 = Some tb5
      /\ rest tb5 = rest tb4 /\ forall k, gcol tb5 k = col5 k.
  Proof.
    intros Pk Ck G.
    assert (Hold : forall a, In a (old_cols s t) -> In a (t_columns s) /\ ft (c_name a) = None).
    { intros a Ha. apply difference_in in Ha as [H1 H2]. split; [exact H1|]. now apply fs_none_t. }
    destruct (phase_inv (tstep E) c_name gcol rest (fun tb => d = DMSSQL -> df_inv tb) (drop_prog d) (fun _ => None)
                (fun a v => exists c, v = Some c /\ dc_default c = want_default d a) (old_cols s t) tb4) as (tb5 & X & R & _ & A).
    - apply nodup_map_filter. exact nodup_s.
    - intros Hd n c x Hc Hx. rewrite G in Hc. unfold col4, col0, def0 in Hc.
      destruct (fs n) as [a|] eqn:Ea, (ft n) as [b|] eqn:Eb; try discriminate; injection Hc as <-.
      + apply find_by_some in Eb as [_ <-]. now apply (def_name_ms (mid a b) b).
      + apply find_by_some in Ea as [_ <-]. eapply def_name_ms; [exact Hd| |exact Hx]. simpl. now rewrite Hd.
      + apply find_by_some in Eb as [_ <-]. now apply (def_name_ms (created d b) b).
    - intros a s' Ia Ra Va (c & Hc & Hdf) _. destruct (Hold a Ia) as [I1 Hn].
      injection Ra as Q1 Q2 Q3.
      assert (Npk : ~ In (c_name a) (t_pk t)).
      { intros Hin. apply (tw_pk _ _ Wt) in Hin. apply fs_none_t in Hn. contradiction. }
      assert (Nk : eng_cascade E = true -> forall x k, cons_s !! x = Some k -> ~ In (c_name a) (own_cols k)).
      { intros He x k Hk. apply want_cons_in in Hk as (Ik & Ka & _). eapply (tc_drop _ _ _ Cp He); eauto. now apply fs_none_t. }
      unfold drop_prog. simpl.
      assert (Plain : def_name c = None -> exists s'', exec_drop_column E (c_name a) s' = Some s'' /\ rest s'' = rest s'
               /\ (d = DMSSQL -> df_inv s'') /\ gcol s'' (c_name a) = None /\ forall k, k <> c_name a -> gcol s'' k = gcol s' k).
      { intros Hnone. destruct (drop_exec E (c_name a) s' c Hc Hnone) as (s'' & Y & Ry & G1 & G2).
        - congruence.
        - intros He x k. rewrite Q2, Ck. eauto.
        - exists s''. split; [exact Y|]. split; [exact Ry|]. split; [|auto].
          intros Hd n cn x Hn1 Hn2. destruct (decide (n = c_name a)) as [->|Nn]; [congruence|].
          rewrite G2 in Hn1 by exact Nn. eapply Va; eauto. }
      destruct (decide (d = DMSSQL)) as [Hd|Hd].
      + unfold drop_column. rewrite Hd in Hdf |- *. unfold want_default in Hdf. destruct (c_default a) as [e|] eqn:Ea.
        * destruct (drop_default_exec (c_name a) s' c (Va Hd) Hc) as (s1 & Y1 & R1 & V1 & G1 & F1).
          { unfold def_name. now rewrite Hdf. }
          { rewrite Q2, Ck. destruct (cons_s !! _) eqn:Ek; [|reflexivity]. apply (cons_no_df _ _ (c_name a) Hd) in Ek. congruence. }
          unfold rest in R1. injection R1 as U1 U2 U3.
          destruct (drop_exec E (c_name a) s1 _ G1 eq_refl) as (s2 & Y2 & R2 & G2 & F2).
          { congruence. }
          { intros He x k. rewrite U2, Q2, Ck. eauto. }
          exists s2. split.
          { unfold gcol in Hc. unfold exec_action. rewrite Hc. cbn [mbind option_bind]. rewrite decide_True by (unfold def_name; now rewrite Hdf).
            rewrite Y1. simpl. rewrite Y2. reflexivity. }
          split; [rewrite R2; unfold rest; congruence|]. split.
          { intros _ n cn x Hn1 Hn2. destruct (decide (n = c_name a)) as [->|Nn]; [congruence|].
            rewrite F2 in Hn1 by exact Nn. eapply V1; eauto. }
          split; [exact G2|]. intros k K. now rewrite F2, F1.
        * destruct Plain as (s'' & Y & P1 & P2 & P3 & P4); [unfold def_name; now rewrite Hdf|]. exists s''. simpl. rewrite Y. simpl. auto 10.
      + assert (drop_column d a = ADropColumn (c_name a)) as -> by (unfold drop_column; destruct d; congruence).
        destruct Plain as (s'' & Y & ?); [now apply (def_name_other c a)|]. exists s''. simpl. now rewrite Y.
    - intros a Ia. destruct (Hold a Ia) as [I1 Hn]. rewrite G. unfold col4, col0. rewrite (nodup_find_s _ I1), Hn.
      eexists. split; [reflexivity|]. simpl. unfold def0. rewrite Hn. now destruct d.
    - exists tb5. split; [exact X|]. split; [exact R|]. intros k. rewrite A, old_find. unfold col5.
      rewrite G. unfold col4, col0. destruct (ft k) as [b|], (fs k); reflexivity.
  Qed.

  (* constraints *)
  Definition gcon (tb : dbtab) (n : string) : option constr := dt_cons tb !! n.
  Definition restc (tb : dbtab) := (dt_cols tb, dt_pk tb, dt_comment tb).
  Let kfs k := find_by k_name k (t_constraints s).
  Let kft k := find_by k_name k (t_constraints t).
  Let knodup_s : base.NoDup (map k_name (t_constraints s)) := tw_cons _ _ Ws.
  Let knodup_t : base.NoDup (map k_name (t_constraints t)) := tw_cons _ _ Wt.
  Lemma want_cons_find ks k : base.NoDup (map k_name ks) ->
    want_cons ks !! k = match find_by k_name k ks with Some x => if is_alter x then Some x else None | None => None end.
  Proof.
    intros W. unfold want_cons. rewrite lookup_list_to_map, find_by_filter_nodup by exact W.
    destruct (find_by k_name k ks) as [x|]; simpl; [|reflexivity]. now destruct (is_alter x).
  Qed.
  Lemma old_cons_find k : find_by k_name k (old_cons s t)
    = match kft k, kfs k with None, Some x => if is_alter x then Some x else None | _, _ => None end.
  Proof.
    unfold old_cons. rewrite find_by_filter_nodup by (apply nodup_map_filter; exact knodup_s).
    rewrite difference_find by exact knodup_s. unfold kft, kfs. now destruct (find_by k_name k (t_constraints t)).
  Qed.
  Lemma new_cons_find k : find_by k_name k (new_cons s t)
    = match kfs k, kft k with None, Some x => if is_alter x then Some x else None | _, _ => None end.
  Proof.
    unfold new_cons. rewrite find_by_filter_nodup by (apply nodup_map_filter; exact knodup_t).
    rewrite difference_find by exact knodup_t. unfold kft, kfs. now destruct (find_by k_name k (t_constraints s)).
  Qed.
  Lemma kcommon k x y : kfs k = Some x -> kft k = Some y -> x = y.
  Proof.
    intros Hx Hy. assert (X := intersection_find k_name (t_constraints s) (t_constraints t) k knodup_s).
    unfold kfs in Hx. unfold kft in Hy. rewrite Hx, Hy in X. apply find_by_some in X as [X _].
    apply (sh_cons _ _ _ Sh) in X. now apply constr_eqb_eq.
  Qed.
  Lemma cons_phase tb5 :
    dt_cons tb5 = cons_s -> (forall k, gcol tb5 k = col5 k) ->
    exists tb6, run (tstep E) (concat (map dropk_prog (old_cons s t)) ++ concat (map addk_prog (new_cons s t))) tb5 = Some tb6
      /\ restc tb6 = restc tb5 /\ dt_cons tb6 = want_cons (t_constraints t).
  Proof.
    intros Ck G.
    destruct (phase (tstep E) k_name gcon restc dropk_prog (fun _ => None) (fun _ v => is_Some v) (old_cons s t) tb5)
      as (tb6 & X6 & R6 & A6).
    - apply nodup_map_filter, nodup_map_filter, knodup_s.
    - intros k s' Ik Rk [c Hc] _. unfold dropk_prog. simpl. unfold exec_drop_constraint. unfold gcon in Hc. rewrite Hc. simpl.
      eexists. split; [reflexivity|]. split; [reflexivity|]. unfold gcon. simpl. split; [apply lookup_delete|].
      intros k' K. now rewrite lookup_delete_ne by congruence.
    - intros k Ik. unfold gcon. rewrite Ck. unfold cons_s. rewrite want_cons_find by exact knodup_s.
      assert (X := old_cons_find (k_name k)).
      rewrite (find_by_in k_name) in X; [|apply nodup_map_filter, nodup_map_filter, knodup_s|exact Ik].
      destruct (kft (k_name k)); [discriminate|]. fold (kfs (k_name k)). destruct (kfs (k_name k)) as [x|] eqn:Ex; [|discriminate].
      destruct (is_alter x); [eauto|discriminate].
    - assert (Cols : forall k, gcol tb6 k = col5 k).
      { intros k. unfold restc in R6. injection R6 as R61 _ _. unfold gcol. rewrite R61. apply G. }
      destruct (phase (tstep E) k_name gcon restc addk_prog (fun k => Some k) (fun _ v => v = None) (new_cons s t) tb6)
        as (tb7 & X7 & R7 & A7).
      + apply nodup_map_filter, nodup_map_filter, knodup_t.
      + intros k s' Ik Rk Hk _. unfold addk_prog. simpl.
        assert (Ik' := Ik). unfold new_cons in Ik'. apply filter_In in Ik' as [Ik' Ha]. apply difference_in in Ik' as [Ik' _].
        unfold gcon in Hk. rewrite Ha, Hk. cbn [negb is_none orb].
        assert (Cs : forall k, gcol s' k = col5 k).
        { intros k'. unfold restc in Rk. injection Rk as R61 _ _. unfold gcol. rewrite R61. apply Cols. }
        assert (default_name_free (k_name k) s' = true) as ->.
        { apply default_free_spec. intros n c Hc Hx. rewrite Cs in Hc. unfold col5 in Hc.
          destruct (ft n) as [b|] eqn:Eb; [|discriminate]. apply find_by_some in Eb as [_ <-]. injection Hc as <-.
          assert (Hdf : dc_default (match fs (c_name b) with Some a => mid a b | None => created d b end) = want_default d b).
          { now destruct (fs (c_name b)). }
          destruct (decide (d = DMSSQL)) as [Hd|Hd].
          - apply (def_name_ms _ b _ Hd Hdf) in Hx. now apply (tw_df _ _ Wt Hd k (c_name b)) in Hx.
          - rewrite (def_name_other _ b Hd Hdf) in Hx. discriminate. }
        cbn [negb orb].
        assert (existsb (fun n => is_none (dt_cols s' !! n)) (own_cols k) = false) as ->.
        { destruct (existsb _ _) eqn:Ex; [|reflexivity]. apply existsb_exists in Ex as (n & Hn & Hb).
          apply (tw_own _ _ Wt k n Ik') in Hn. unfold gcol in Cs. rewrite Cs in Hb. unfold col5 in Hb.
          destruct (ft n) eqn:Et; [discriminate|]. apply fs_none_t in Et. contradiction. }
        simpl. eexists. split; [reflexivity|]. split; [reflexivity|]. unfold gcon. simpl. split; [apply lookup_insert|].
        intros k' K. now rewrite lookup_insert_ne by congruence.
      + intros k Ik. rewrite A6. assert (X := new_cons_find (k_name k)).
        rewrite (find_by_in k_name) in X; [|apply nodup_map_filter, nodup_map_filter, knodup_t|exact Ik].
        rewrite old_cons_find. destruct (kfs (k_name k)) eqn:Es; [discriminate|].
        unfold gcon. rewrite Ck. unfold cons_s. rewrite want_cons_find by exact knodup_s. unfold kfs in Es. rewrite Es.
        now destruct (kft (k_name k)).
      + exists tb7. rewrite run_app, X6. cbn [mbind option_bind]. split; [exact X7|]. split; [congruence|].
        apply map_eq. intros k. specialize (A7 k). unfold gcon in A7. rewrite A7, new_cons_find.
        specialize (A6 k). unfold gcon in A6. rewrite A6, old_cons_find, Ck. unfold cons_s.
        rewrite !want_cons_find by assumption. fold (kfs k). fold (kft k).
        change (find_by k_name k (t_constraints s)) with (kfs k). change (find_by k_name k (t_constraints t)) with (kft k).
        destruct (kfs k) as [x|] eqn:Es, (kft k) as [y|] eqn:Et; try reflexivity.
        * now rewrite (kcommon k x y Es Et).
        * now destruct (is_alter x).
        * now destruct (is_alter y).
  Qed.

  Lemma main_phase tb0 :
    rest tb0 = (t_pk t, cons_s, want_comment d (t_desc s)) -> (forall k, gcol tb0 k = col0 k) ->
    exists tb6, run (tstep E) (main_acts d s t) tb0 = Some tb6
      /\ rest tb6 = (t_pk t, want_cons (t_constraints t), want_comment d (t_desc s)) /\ forall k, gcol tb6 k = col5 k.
  Proof.
    intros R G. destruct (cols3_main tb0 R G) as (tb3 & X3 & R3 & A3). rewrite R in R3.
    assert (Q3 := R3). injection Q3 as Q31 Q32 Q33.
    destruct (alter_phase tb3 Q31 A3) as (tb4 & X4 & R4 & A4). rewrite R3 in R4.
    assert (Q4 := R4). injection Q4 as Q41 Q42 Q43.
    destruct (drop_phase tb4 Q41 Q42 A4) as (tb5 & X5 & R5 & A5). rewrite R4 in R5.
    assert (Q5 := R5). injection Q5 as Q51 Q52 Q53.
    destruct (cons_phase tb5 Q52 A5) as (tb6 & X6 & R6 & A6). unfold restc in R6. injection R6 as U1 U2 U3.
    exists tb6. split.
    - unfold main_acts.
      assert (Ap : forall a b c e f : list tact, a ++ b ++ c ++ e ++ f = (a ++ b ++ c ++ e) ++ f).
      { intros. now rewrite <- !app_assoc. }
      rewrite Ap, run_app, X3. cbn [mbind option_bind]. rewrite run_app, X4. cbn [mbind option_bind].
      rewrite run_app, X5. cbn [mbind option_bind]. exact X6.
    - split; [unfold rest; congruence|]. intros k. unfold gcol. rewrite U1. apply A5.
  Qed.

  (* comments *)
  Lemma midc_target a b : d <> DPg -> In a (t_columns s) -> In b (t_columns t) -> c_name a = c_name b -> midc a b = want_comment d (c_desc b).
  Proof.
    intros Nd Ia Ib En. pose proof (tc_general _ _ _ Cp) as G. unfold midc, inline_comment, want_comment. unfold general in G. destruct d; try congruence;
      try (destruct G as [_ G]; [tauto|]; destruct (G a b Ia Ib En) as [-> _]); destruct (is_column_migrated _ a b); reflexivity.
  Qed.
  Lemma want_tab_eq tb7 : dt_pk tb7 = t_pk t -> dt_cons tb7 = want_cons (t_constraints t) ->
    dt_comment tb7 = want_comment d (t_desc t) -> (forall k, gcol tb7 k = want_col d <$> ft k) -> tb7 = want_tab d t.
  Proof.
    intros H1 H2 H3 H4. destruct tb7 as [cols pk cons cm]. simpl in *. subst. unfold want_tab. f_equal.
    apply map_eq. intros k. unfold gcol in H4. simpl in H4. rewrite H4. unfold want_cols. now rewrite lookup_list_to_map.
  Qed.
  Lemma created_want b : d <> DPg -> created d b = want_col d b.
  Proof. intros N. unfold created, want_col, with_comment, inline_comment. simpl. destruct d; congruence || reflexivity. Qed.

  Lemma post_phase tb6 :
    rest tb6 = (t_pk t, want_cons (t_constraints t), want_comment d (t_desc s)) -> (forall k, gcol tb6 k = col5 k) ->
    run (tstep E) (post_acts d s t) tb6 = Some (want_tab d t).
  Proof.
    intros R G. assert (Q := R). injection Q as Q1 Q2 Q3.
    destruct (decide (d = DPg)) as [Hd|Hd].
    - assert (post_acts d s t = concat (map (comment_prog s) (t_columns t))
             ++ match comment_change (t_desc s) (t_desc t) with Some c => [TTab c] | None => [] end) as ->.
      { unfold post_acts. now rewrite Hd. }
      assert (Wc : forall x, want_comment d x = norm_comment x) by (intros x; now rewrite Hd).
      destruct (phase (tstep E) c_name gcol rest (comment_prog s) (fun b => Some (want_col d b))
                  (fun b v => v = col5 (c_name b)) (t_columns t) tb6 nodup_t) as (tb7 & X7 & R7 & A7).
      + intros b s' Ib Rb Hb _. assert (Fb := nodup_find_t _ Ib).
        unfold col5 in Hb. rewrite Fb in Hb. unfold comment_prog. rewrite get_find_by.
        change (find_by c_name (c_name b) (t_columns s)) with (fs (c_name b)).
        set (sd := match fs (c_name b) with Some sc => c_desc sc | None => None end).
        set (cur := match fs (c_name b) with Some a => mid a b | None => created d b end) in Hb.
        assert (Hcur : forall x, with_comment x cur = with_comment x (want_col d b)).
        { intros x. unfold cur. now destruct (fs (c_name b)). }
        destruct (comment_change sd (c_desc b)) as [c|] eqn:Ec; simpl.
        * apply comment_change_some in Ec. subst c. unfold upd_col. unfold gcol in Hb. rewrite Hb. simpl.
          eexists. split; [reflexivity|]. split; [reflexivity|]. unfold gcol. simpl. rewrite lookup_insert. split.
          -- rewrite Hcur. f_equal. unfold with_comment, want_col. simpl. now rewrite Wc.
          -- intros k K. now rewrite lookup_insert_ne by congruence.
        * apply comment_change_none in Ec. exists s'. split; [reflexivity|]. split; [reflexivity|]. split; [|auto].
          rewrite Hb. f_equal. unfold cur, sd in *. destruct (fs (c_name b)) as [a|] eqn:Ea.
          -- unfold mid, want_col. f_equal. unfold midc. rewrite Hd. rewrite <- Hd.
             destruct (is_column_migrated d a b) eqn:Em; [|now rewrite Ec].
             rewrite Hd at 1. simpl.
             assert (Hm : In (a, b) (migrated d s t)).
             { assert (M := mig_find (c_name b)). rewrite Ea, Fb, Em in M. now apply find_by_some in M as [M _]. }
             destruct (mig_facts _ Hm) as (_ & _ & _ & _ & _ & _ & _ & Hq). simpl in Hq. symmetry. now apply Hq.
          -- unfold created, want_col, with_comment, inline_comment. simpl. rewrite <- Ec. rewrite Hd. reflexivity.
      + intros b Ib. apply G.
      + rewrite run_app, X7. cbn [mbind option_bind].
        assert (Q7 : rest tb7 = (t_pk t, want_cons (t_constraints t), want_comment d (t_desc s))) by congruence.
        injection Q7 as V1 V2 V3.
        assert (A7' : forall k, gcol tb7 k = want_col d <$> ft k).
        { intros k. rewrite A7. change (find_by c_name k (t_columns t)) with (ft k). destruct (ft k) as [b|] eqn:Eb; [reflexivity|].
          rewrite G. unfold col5. now rewrite Eb. }
        destruct (comment_change (t_desc s) (t_desc t)) as [c|] eqn:Ec; simpl.
        * apply comment_change_some in Ec. subst c. f_equal. apply want_tab_eq; auto. simpl. now rewrite Wc.
        * apply comment_change_none in Ec. f_equal. apply want_tab_eq; auto. now rewrite V3, Ec.
    - assert (A7 : forall k, gcol tb6 k = want_col d <$> ft k).
      { intros k. rewrite G. unfold col5. destruct (ft k) as [b|] eqn:Eb; [|reflexivity]. simpl. f_equal.
        destruct (fs k) as [a|] eqn:Ea; [|now apply created_want]. unfold mid, want_col. f_equal.
        apply find_by_some in Ea as [Ia <-]. apply find_by_some in Eb as [Ib Eb]. now apply midc_target. }
      destruct (decide (d = DMySQL)) as [Hm|Hm].
      + assert (post_acts d s t = flat_map flat (my_table_comment s t)) as ->.
        { unfold post_acts. now rewrite Hm. }
        assert (Wc : forall x, want_comment d x = norm_comment (short_desc x)) by (intros x; rewrite Hm; destruct x; reflexivity).
        unfold my_table_comment. rewrite Wc in Q3.
        destruct (short_desc (t_desc s)) as [x|] eqn:Ex, (short_desc (t_desc t)) as [y|] eqn:Ey; simpl.
        * destruct (String.eqb_spec x y) as [->|Nx]; simpl; f_equal; apply want_tab_eq; auto; simpl; now rewrite ?Q3, Wc, Ey.
        * f_equal; apply want_tab_eq; auto; simpl; now rewrite ?Q3, Wc, Ey.
        * f_equal; apply want_tab_eq; auto; simpl; now rewrite ?Q3, Wc, Ey.
        * f_equal; apply want_tab_eq; auto; simpl; now rewrite ?Q3, Wc, Ey.
      + assert (post_acts d s t = []) as -> by (unfold post_acts; destruct d; congruence).
        simpl. f_equal. apply want_tab_eq; auto. rewrite Q3. pose proof (tc_general _ _ _ Cp) as G5. unfold general in G5. unfold want_comment. destruct d; try congruence; (destruct G5 as [-> _]; [tauto|reflexivity]).
  Qed.

  Lemma table_run : run (tstep E) (pre_acts d s t ++ main_acts d s t ++ post_acts d s t) tb = Some (want_tab d t).
  Proof.
    destruct pre_phase as (tb0 & X0 & R0 & A0). destruct (main_phase tb0 R0 A0) as (tb6 & X6 & R6 & A6).
    rewrite run_app, X0. cbn [mbind option_bind]. rewrite run_app, X6. cbn [mbind option_bind]. now apply post_phase.
  Qed.
End Main.

Theorem mutate_table_exec d s t stmts tb D :
  mutate_table d s t = Ok stmts -> tab_wf d s -> tab_wf d t -> tab_compat d s t ->
  tab_like d s t tb -> db_objs D !! key_of (t_name s) = Some (OTable tb) ->
  exec_all (engine_of d) stmts D = Some (set_obj (key_of (t_name t)) (Some (OTable (want_tab d t))) D).
Proof.
  intros H Ws Wt Cp L HD. destruct (mutate_table_shape d s t stmts H) as (Sh & Fo & Fl).
  rewrite (exec_flat _ _ _ _ _ Fo HD), Fl, (table_run d s t Sh Ws Wt Cp tb L). simpl.
  now rewrite (sh_name _ _ _ Sh).
Qed.
Print Assumptions mutate_table_exec.
