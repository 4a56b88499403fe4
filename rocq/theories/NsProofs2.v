(** Effect of the statements about one object. *)
From Verif Require Import PyStr QuoteModel ObjectDict ObjectDictSpec ObjectDictProofs Types Objects SqlAst Ddl Mutate DbSpec CatSpec DbLemmas EqProofs TabProofs1 TabProofs2 TabProofs3 TabProofs4 TabProofs5 NsProofs1.
From stdpp Require Import gmap strings.
Open Scope list_scope.

Lemma exec_all_app E l1 l2 D : exec_all E (l1 ++ l2) D = (D' ← exec_all E l1 D; exec_all E l2 D').
Proof. rewrite exec_all_run, run_app, <- exec_all_run. destruct (exec_all E l1 D); simpl; [|reflexivity]. now rewrite exec_all_run. Qed.
Lemma schemas_set_obj k o D : db_schemas (set_obj k o D) = db_schemas D.
Proof. reflexivity. Qed.

Lemma create_enum_exec E e D :
  base.NoDup (e_values e) -> db_objs D !! key_of (e_name e) = None -> schema_ok D (key_of (e_name e)) = true ->
  exec E (create_enum e) D = Some (set_obj (key_of (e_name e)) (Some (want_enum e)) D).
Proof.
  intros W N S. unfold create_enum. simpl. unfold no_dup. rewrite bool_decide_true by exact W.
  unfold create_obj. rewrite N, S. reflexivity.
Qed.

Lemma map_res_map {A B} (f : A -> res B) (g : A -> B) l r :
  (forall x y, f x = Ok y -> y = g x) -> map_res f l = Ok r -> r = map g l.
Proof.
  intros H. revert r. induction l as [|a l IH]; simpl; intros r Hr; [congruence|].
  destruct (f a) as [b|] eqn:E; simpl in Hr; [|discriminate]. destruct (map_res f l) as [bs|]; simpl in Hr; [|discriminate].
  injection Hr as <-. rewrite (H _ _ E), (IH bs eq_refl). reflexivity.
Qed.

Lemma create_struct_exec E d x l D :
  create_struct d x = Ok l -> base.NoDup (map m_name (s_members x)) ->
  db_objs D !! key_of (s_name x) = None -> schema_ok D (key_of (s_name x)) = true ->
  exec_all E l D = Some (set_obj (key_of (s_name x)) (Some (want_struct d x)) D).
Proof.
  intros H W N S. unfold create_struct in H.
  match type of H with bind ?z _ = _ => destruct z as [ms|] eqn:Em; simpl in H; [|discriminate] end.
  apply (map_res_map _ (fun m => (m_name m, m_type m))) in Em.
  2:{ intros m y Hy. destruct (type_str (m_type m)); simpl in Hy; congruence. }
  injection H as <-. subst ms. simpl. rewrite map_map. simpl.
  unfold no_dup. rewrite bool_decide_true by exact W. unfold create_obj. rewrite N, S. simpl.
  fold (want_members (s_members x)). unfold want_struct.
  destruct (decide (d = DPg)) as [->|Hd].
  - destruct (s_desc x) as [c|]; [|reflexivity]. cbn [exec_all exec]. rewrite set_obj_lookup. simpl. now rewrite set_obj_set.
  - destruct d; try congruence; reflexivity.
Qed.

Definition bare (d : dialect) (x : table) : dbtab :=
  DbTab (want_cols d (t_columns x)) (t_pk x) ∅ (want_comment d (t_desc x)).

Lemma norm_truthy c : norm_comment (truthy c) = norm_comment c.
Proof. destruct c as [s|]; [|reflexivity]. destruct s; reflexivity. Qed.

Lemma column_defs_names d cs cds : map_res (column_def d) cs = Ok cds -> map cd_name cds = map c_name cs.
Proof.
  revert cds. induction cs as [|c cs IH]; simpl; intros cds H; [injection H as <-; reflexivity|].
  destruct (column_def d c) as [cd|] eqn:E; simpl in H; [|discriminate].
  destruct (map_res (column_def d) cs) as [r|]; simpl in H; [|discriminate]. injection H as <-. simpl.
  rewrite (IH r eq_refl). now rewrite (column_def_name _ _ _ E).
Qed.
Lemma column_defs_map d pk cs cds :
  map_res (column_def d) cs = Ok cds -> (forall c, In c cs -> col_wf c) ->
  (forall c, In c cs -> In (c_name c) pk -> c_nullable c = false) ->
  map (fun x => (cd_name x, mean_coldef pk x)) cds = map (fun c => (c_name c, created d c)) cs.
Proof.
  revert cds. induction cs as [|c cs IH]; simpl; intros cds H W P; [injection H as <-; reflexivity|].
  destruct (column_def d c) as [cd|] eqn:E; simpl in H; [|discriminate].
  destruct (map_res (column_def d) cs) as [r|]; simpl in H; [|discriminate]. injection H as <-. simpl.
  rewrite (IH r eq_refl) by auto. f_equal.
  now rewrite (mean_created d pk c cd E), (column_def_name _ _ _ E) by auto.
Qed.

Lemma created_want_ne d b : d <> DPg -> created d b = want_col d b.
Proof. intros N. unfold created, want_col, with_comment, inline_comment. simpl. destruct d; congruence || reflexivity. Qed.

Lemma enum_insert_rows x l : enum_insert x = Ok l -> forall E D, exec_all E l D = Some D.
Proof.
  unfold enum_insert. destruct (t_enum x); [|intros [= <-]; reflexivity].
  destruct (get_value_columns x None); simpl; [|discriminate]. destruct (map_res constant l0); simpl; [|discriminate].
  intros [= <-] E D. reflexivity.
Qed.

Lemma create_table_exec E d x l D :
  create_table d x = Ok l -> tab_wf d x ->
  db_objs D !! key_of (t_name x) = None -> schema_ok D (key_of (t_name x)) = true ->
  exec_all E l D = Some (set_obj (key_of (t_name x)) (Some (OTable (bare d x))) D).
Proof.
  intros H W N S. unfold create_table in H.
  destruct (map_res (column_def d) (t_columns x)) as [cds|] eqn:Ec; simpl in H; [|discriminate].
  destruct (enum_insert x) as [ins|] eqn:Ei; simpl in H; [|discriminate]. injection H as <-.
  assert (Hn := column_defs_names _ _ _ Ec).
  assert (Hm := column_defs_map d (t_pk x) _ _ Ec (tw_col _ _ W) (tw_pk_null _ _ W)).
  cbn [exec_all exec]. rewrite Hn, Hm.
  assert (no_dup (map c_name (t_columns x)) = true) as ->.
  { unfold no_dup. apply bool_decide_eq_true. exact (tw_cols _ _ W). }
  assert (forallb (fun n => str_in n (map c_name (t_columns x))) (t_pk x) = true) as ->.
  { apply forallb_forall. intros n Hin. apply str_in_spec. now apply (tw_pk _ _ W). }
  cbn [andb]. unfold create_obj. rewrite N, S. cbn [is_none andb mbind option_bind].
  set (tb0 := DbTab (list_to_map (map (fun c => (c_name c, created d c)) (t_columns x))) (t_pk x) ∅ (norm_comment (inline_table_comment d x))).
  set (D1 := set_obj _ _ _).
  assert (HD1 : db_objs D1 !! key_of (t_name x) = Some (OTable tb0)) by apply set_obj_lookup.
  rewrite exec_all_app.
  assert (G : exec_all E (create_comments d x) D1 = Some (set_obj (key_of (t_name x)) (Some (OTable (bare d x))) D)).
  { destruct (decide (d = DPg)) as [Hd|Hd].
    - rewrite (exec_flat E (key_of (t_name x)) _ D1 tb0).
      2:{ unfold create_comments. rewrite Hd. apply Forall_app. split; [destruct (t_desc x); repeat constructor|].
          apply List.Forall_forall. intros y Hy. apply in_flat_map in Hy as (c & _ & Hy). destruct (c_desc c); [|contradiction].
          destruct Hy as [<-|[]]. reflexivity. }
      2:{ exact HD1. }
      assert (Fl : flat_map flat (create_comments d x)
               = match t_desc x with Some s => [TTab (Some s)] | None => [] end
                 ++ concat (map (fun c => match c_desc c with Some s => [TCol (c_name c) (Some s)] | None => [] end) (t_columns x))).
      { unfold create_comments. rewrite Hd, flat_map_app. f_equal; [now destruct (t_desc x)|].
        clear. induction (t_columns x) as [|c cs IH]; simpl; [reflexivity|]. rewrite flat_map_app, IH. now destruct (c_desc c). }
      rewrite Fl, run_app.
      set (tb1 := DbTab (dt_cols tb0) (t_pk x) ∅ (want_comment d (t_desc x))).
      assert (X1 : run (tstep E) match t_desc x with Some s => [TTab (Some s)] | None => [] end tb0 = Some tb1).
      { unfold tb1, tb0. rewrite Hd. destruct (t_desc x); reflexivity. }
      rewrite X1. cbn [mbind option_bind].
      destruct (phase (tstep E) c_name gcol rest (fun c => match c_desc c with Some s => [TCol (c_name c) (Some s)] | None => [] end)
                 (fun c => Some (want_col d c)) (fun c v => v = Some (created d c)) (t_columns x) tb1 (tw_cols _ _ W)) as (tb2 & X2 & R2 & A2).
      + intros c s' Ic Rc Hc _. unfold gcol in Hc. destruct (c_desc c) as [cm|] eqn:Ed; simpl.
        * unfold upd_col. rewrite Hc. simpl. eexists. split; [reflexivity|]. split; [reflexivity|]. unfold gcol. simpl.
          rewrite lookup_insert. split; [|intros k K; now rewrite lookup_insert_ne by congruence].
          unfold created, want_col, with_comment. simpl. rewrite Ed, Hd. reflexivity.
        * exists s'. split; [reflexivity|]. split; [reflexivity|]. split; [|auto]. unfold gcol. rewrite Hc.
          unfold created, want_col, with_comment. simpl. rewrite Ed, Hd. reflexivity.
      + intros c Ic. unfold gcol, tb1, tb0. simpl. rewrite lookup_list_to_map. rewrite (find_by_in c_name); [reflexivity|exact (tw_cols _ _ W)|exact Ic].
      + rewrite X2. cbn [mbind option_bind]. unfold D1. rewrite set_obj_set. f_equal. f_equal. f_equal. f_equal.
        unfold rest in R2. injection R2 as U1 U2 U3. destruct tb2 as [cs pk ks cm]. simpl in *. unfold bare. subst. f_equal.
        apply map_eq. intros k. specialize (A2 k). unfold gcol in A2. simpl in A2. rewrite A2.
        unfold want_cols. rewrite !lookup_list_to_map. now destruct (find_by c_name k (t_columns x)).
    - assert (create_comments d x = []) as -> by (unfold create_comments; destruct d; congruence).
      simpl. unfold D1. f_equal. f_equal. f_equal. f_equal. unfold tb0, bare. f_equal.
      + unfold want_cols. f_equal. apply map_ext. intros c. now rewrite created_want_ne.
      + unfold inline_table_comment, want_comment. destruct d; try congruence; rewrite ?norm_truthy; reflexivity. }
  rewrite G. cbn [mbind option_bind]. apply (enum_insert_rows _ _ Ei).
Qed.

Lemma flat_add_constraints d x : flat_map flat (add_constraints d x) = concat (map addk_prog (table_constraints x)).
Proof.
  unfold add_constraints. destruct (table_constraints x) as [|k ks] eqn:E; [reflexivity|].
  assert (H : concat (map addk_prog (k :: ks)) = map TA (map AAddConstraint (k :: ks))).
  { rewrite map_map. symmetry. apply map_concat_single. }
  rewrite H. destruct d; try (apply flat_alter). cbn [flat_map flat]. now rewrite app_nil_r.
Qed.
Lemma tab_add_constraints d x : Forall (tab_stmt (key_of (t_name x))) (add_constraints d x).
Proof. unfold add_constraints. destruct (table_constraints x); [constructor|]. destruct d; try apply tab_alter. repeat constructor. Qed.

Lemma add_constraints_exec E d x D :
  tab_wf d x -> db_objs D !! key_of (t_name x) = Some (OTable (bare d x)) ->
  exec_all E (add_constraints d x) D = Some (set_obj (key_of (t_name x)) (Some (OTable (want_tab d x))) D).
Proof.
  intros W HD. rewrite (exec_flat _ _ _ _ _ (tab_add_constraints d x) HD), flat_add_constraints.
  assert (Wk : base.NoDup (map k_name (table_constraints x))) by (apply nodup_map_filter; exact (tw_cons _ _ W)).
  destruct (phase (tstep E) k_name gcon restc addk_prog (fun k => Some k) (fun _ v => v = None) (table_constraints x) (bare d x) Wk)
    as (tb & X & R & A).
  - intros k s' Ik Rk Hk _. unfold addk_prog. simpl. unfold table_constraints in Ik. apply filter_In in Ik as [Ik Ha].
    unfold gcon in Hk. rewrite Ha, Hk. cbn [negb is_none orb].
    unfold restc in Rk. injection Rk as Q1 Q2 Q3. simpl in Q1.
    assert (default_name_free (k_name k) s' = true) as ->.
    { apply default_free_spec. intros n c Hc Hx. unfold gcol in Hc. rewrite Q1 in Hc. unfold want_cols in Hc.
      rewrite lookup_list_to_map in Hc. destruct (find_by c_name n (t_columns x)) as [b|]; simpl in Hc; [|discriminate].
      injection Hc as <-. unfold def_name, want_col in Hx. simpl in Hx. unfold want_default in Hx.
      destruct (c_default b); simpl in Hx; [|now destruct d]. destruct d eqn:Hd; simpl in Hx; try discriminate.
      injection Hx as Hx. symmetry in Hx. now apply (tw_df _ _ W eq_refl k (c_name b)) in Hx. }
    cbn [negb orb].
    assert (existsb (fun n => is_none (dt_cols s' !! n)) (own_cols k) = false) as ->.
    { destruct (existsb _ _) eqn:Ex; [|reflexivity]. apply existsb_exists in Ex as (n & Hn & Hb).
      apply (tw_own _ _ W k n Ik) in Hn. rewrite Q1 in Hb. unfold want_cols in Hb. rewrite lookup_list_to_map in Hb.
      destruct (find_by c_name n (t_columns x)) eqn:Et; [discriminate|]. apply find_by_none in Et. contradiction. }
    simpl. eexists. split; [reflexivity|]. split; [reflexivity|]. unfold gcon. simpl. split; [apply lookup_insert|].
    intros k' K. now rewrite lookup_insert_ne by congruence.
  - intros k Ik. unfold gcon. simpl. apply lookup_empty.
  - rewrite X. cbn [mbind option_bind]. f_equal. f_equal. f_equal. f_equal.
    unfold restc in R. injection R as U1 U2 U3. destruct tb as [cs pk ks cm]. simpl in *. subst. unfold want_tab. f_equal.
    apply map_eq. intros k. specialize (A k). unfold gcon in A. simpl in A. rewrite A.
    unfold want_cons. rewrite (lookup_list_to_map k_name (fun k => k)). unfold table_constraints.
    destruct (find_by k_name k (List.filter is_alter (t_constraints x))); [reflexivity|]. apply lookup_empty.
Qed.

(** enumerations *)
Lemma mutate_enum_exec E s t l D :
  mutate_enum s t = Ok l -> base.NoDup (e_values t) -> db_objs D !! key_of (e_name s) = Some (want_enum s) ->
  exec_all E l D = Some (set_obj (key_of (e_name t)) (Some (want_enum t)) D).
Proof.
  intros H W HD. unfold mutate_enum, check_identity in H.
  destruct (qid_eqb (e_name s) (e_name t)) eqn:En; simpl in H; [|discriminate]. apply qid_eqb_eq in En.
  destruct (List.filter (fun v => negb (str_in v (e_values t))) (e_values s)) eqn:Ef; [|discriminate]. injection H as <-.
  assert (Sub : forall v, In v (e_values s) -> In v (e_values t)).
  { intros v Hv. destruct (str_in v (e_values t)) eqn:Ev; [now apply str_in_spec|].
    assert (X : In v (List.filter (fun v => negb (str_in v (e_values t))) (e_values s))) by (apply filter_In; now rewrite Ev).
    rewrite Ef in X. contradiction. }
  rewrite En in *.
  set (new := List.filter (fun v => negb (str_in v (e_values s))) (e_values t)).
  assert (Wn : base.NoDup new).
  { unfold new. apply NoDup_ListNoDup, List.NoDup_filter, NoDup_ListNoDup. exact W. }
  assert (Nn : forall v, In v new -> ~ In v (e_values s)).
  { intros v Hv. apply filter_In in Hv as [_ Hv]. intros Hs. apply str_in_spec in Hs. rewrite Hs in Hv. discriminate. }
  assert (G : forall l vs D, base.NoDup l -> (forall v, In v l -> v ∉ vs) ->
     db_objs D !! key_of (e_name t) = Some (OEnum vs) ->
     exec_all E (map (SAddValue (e_name t)) l) D = Some (set_obj (key_of (e_name t)) (Some (OEnum (list_to_set l ∪ vs))) D)).
  { clear. induction l as [|v l IH]; intros vs D W N HD.
    - simpl. rewrite set_obj_id; [reflexivity|]. rewrite HD. do 2 f_equal. set_solver.
    - apply NoDup_cons in W as [W1 W2]. cbn [map exec_all exec]. rewrite HD.
      rewrite bool_decide_false by (apply N; now left). cbn [mbind option_bind].
      rewrite (IH ({[v]} ∪ vs)); [|exact W2| |apply set_obj_lookup].
      + rewrite set_obj_set. do 4 f_equal. set_solver.
      + intros u Hu. assert (u ∉ vs) by (apply N; now right). assert (u <> v); [|set_solver].
        intros ->. apply W1. now apply elem_of_list_In. }
  rewrite (G new (list_to_set (e_values s)) D Wn); [| |exact HD].
  - assert (Hs : list_to_set new ∪ list_to_set (e_values s) = (list_to_set (e_values t) : gset string)); [|unfold want_enum; now rewrite Hs].
    apply leibniz_equiv. intros v. rewrite elem_of_union, !elem_of_list_to_set, !elem_of_list_In. unfold new. rewrite filter_In.
    split; [intros [[Hv _]|Hv]; auto|]. intros Hv. destruct (str_in v (e_values s)) eqn:Ev; [right; now apply str_in_spec|left; auto].
  - intros v Hv. rewrite elem_of_list_to_set, elem_of_list_In. now apply Nn.
Qed.

(** composite types *)
Lemma exec_sactions_run l m : exec_sactions l m = run exec_saction l m.
Proof. revert m. induction l as [|a l IH]; intros m; simpl; [reflexivity|]. destruct (exec_saction a m); simpl; auto. Qed.

Definition smut_prog (p : member * member) : list saction :=
  if mem_eqb (fst p) (snd p) then [] else [SaSetType (m_name (fst p)) (m_type (snd p))].
Definition sdrop_prog (m : member) : list saction := [SaDrop (m_name m)].
Definition sadd_prog (m : member) : list saction := [SaAdd (m_name m) (m_type m)].

Lemma struct_run s t ms :
  base.NoDup (map m_name (s_members s)) -> base.NoDup (map m_name (s_members t)) -> struct_like s t ms ->
  run exec_saction (concat (map sdrop_prog (od_difference m_name (s_members s) (s_members t)))
                    ++ concat (map smut_prog (od_intersection m_name (s_members s) (s_members t)))
                    ++ concat (map sadd_prog (od_difference m_name (s_members t) (s_members s)))) ms
  = Some (want_members (s_members t)).
Proof.
  intros Ws Wt L.
  set (fs k := find_by m_name k (s_members s)). set (ft k := find_by m_name k (s_members t)).
  set (get (m : gmap string sqltype) k := m !! k). set (rs (m : gmap string sqltype) := tt).
  assert (Hin : forall a, In a (s_members s) -> is_Some (ms !! m_name a)).
  { intros a Ha. apply (sl_dom _ _ _ L). now apply in_map. }
  destruct (phase exec_saction m_name get rs sdrop_prog (fun _ => None) (fun _ v => is_Some v)
              (od_difference m_name (s_members s) (s_members t)) ms) as (m1 & X1 & _ & A1).
  { apply nodup_map_filter, Ws. }
  { intros a m' Ia _ [ty Hty] _. unfold sdrop_prog. simpl. unfold get in Hty. rewrite Hty. simpl. eexists. split; [reflexivity|].
    split; [reflexivity|]. unfold get. split; [apply lookup_delete|]. intros k K. now rewrite lookup_delete_ne by congruence. }
  { intros a Ha. apply difference_in in Ha as [Ha _]. now apply Hin. }
  destruct (phase exec_saction (fun p => m_name (fst p)) get rs smut_prog (fun p => Some (m_type (snd p)))
              (fun p v => exists ty, v = Some ty /\ (m_type (fst p) = m_type (snd p) -> ty = m_type (fst p)))
              (od_intersection m_name (s_members s) (s_members t)) m1) as (m2 & X2 & _ & A2).
  { apply intersection_keys_nodup, Ws. }
  { intros [a b] m' Ia _ (ty & Hty & Hq) _. cbn [fst snd] in *. apply intersection_same in Ia as (I1 & I2 & En).
    unfold smut_prog. cbn [fst snd]. destruct (mem_eqb a b) eqn:Em.
    - apply mem_eqb_eq in Em. subst b. exists m'. split; [reflexivity|]. split; [reflexivity|]. split; [|auto]. rewrite Hty. now rewrite Hq.
    - simpl. unfold get in Hty. rewrite Hty. simpl. eexists. split; [reflexivity|]. split; [reflexivity|]. unfold get.
      split; [apply lookup_insert|]. intros k K. now rewrite lookup_insert_ne by congruence. }
  { intros [a b] Ia. cbn [fst snd] in *. assert (Ia' := Ia). apply intersection_same in Ia as (I1 & I2 & En).
    destruct (sl_ms _ _ _ L a I1) as (ty & Hty & Hq). exists ty. split; [|intros Et; eapply Hq; eauto].
    rewrite A1, difference_find by exact Ws.
    destruct (find_by m_name (m_name a) (s_members t)) eqn:Eb; [exact Hty|]. apply find_by_none in Eb. exfalso. apply Eb. rewrite En. now apply in_map. }
  assert (G2 : forall k, m2 !! k = match fs k, ft k with Some _, Some b => Some (m_type b) | _, _ => None end).
  { intros k. specialize (A2 k). unfold get in A2. rewrite A2, intersection_find by exact Ws. fold (fs k). fold (ft k).
    specialize (A1 k). unfold get in A1. rewrite A1, difference_find by exact Ws. fold (fs k). fold (ft k).
    assert (N : fs k = None -> ms !! k = None).
    { intros Hn. apply find_by_none in Hn. destruct (ms !! k) eqn:Em; [|reflexivity]. exfalso. apply Hn. apply (sl_dom _ _ _ L). eauto. }
    destruct (fs k), (ft k); auto. }
  destruct (phase exec_saction m_name get rs sadd_prog (fun m => Some (m_type m)) (fun _ v => v = None)
              (od_difference m_name (s_members t) (s_members s)) m2) as (m3 & X3 & _ & A3).
  { apply nodup_map_filter, Wt. }
  { intros a m' Ia _ Hv _. unfold sadd_prog. simpl. unfold get in Hv. rewrite Hv. simpl. eexists. split; [reflexivity|].
    split; [reflexivity|]. unfold get. split; [apply lookup_insert|]. intros k K. now rewrite lookup_insert_ne by congruence. }
  { intros a Ha. apply difference_in in Ha as [Ha Hn]. unfold get. rewrite G2. unfold fs.
    destruct (find_by m_name (m_name a) (s_members s)) eqn:Ea; [|reflexivity]. exfalso. apply find_by_some in Ea as [I1 E1]. apply Hn.
    rewrite <- E1. now apply in_map. }
  rewrite run_app, X1. cbn [mbind option_bind]. rewrite run_app, X2. cbn [mbind option_bind]. rewrite X3. f_equal.
  apply map_eq. intros k. specialize (A3 k). unfold get in A3. rewrite A3, difference_find by exact Wt. rewrite G2.
  unfold want_members. rewrite lookup_list_to_map. fold (fs k). fold (ft k). destruct (fs k), (ft k); reflexivity.
Qed.

Lemma mutate_struct_exec E d s t l ms D :
  mutate_struct d s t = Ok l -> base.NoDup (map m_name (s_members s)) -> base.NoDup (map m_name (s_members t)) ->
  struct_like s t ms -> db_objs D !! key_of (s_name s) = Some (OStruct ms (struct_comment d s)) ->
  exec_all E l D = Some (set_obj (key_of (s_name t)) (Some (want_struct d t)) D).
Proof.
  intros H Ws Wt L HD. unfold mutate_struct in H. destruct (mutate_struct_base s t) as [base|] eqn:B; simpl in H; [|discriminate].
  injection H as <-. unfold mutate_struct_base, check_identity in B.
  destruct (qid_eqb (s_name s) (s_name t)) eqn:En; simpl in B; [|discriminate]. apply qid_eqb_eq in En.
  match type of B with bind ?z _ = _ => destruct z as [al|] eqn:E1; simpl in B; [|discriminate] end.
  match type of B with bind ?z _ = _ => destruct z as [ad|] eqn:E2; simpl in B; [|discriminate] end.
  injection B as <-.
  apply concat_res_ok in E1 as [S1 ->]. apply (map_res_map _ (fun m => SaAdd (m_name m) (m_type m))) in E2.
  2:{ intros m y Hy. destruct (type_str (m_type m)); simpl in Hy; congruence. }
  subst ad.
  assert (Ea : concat (map (fun p => ok_or [] (if mem_eqb (fst p) (snd p) then Ok [] else do _ <- type_str (m_type (snd p));
                       Ok [SaSetType (m_name (fst p)) (m_type (snd p))])) (od_intersection m_name (s_members s) (s_members t)))
               = concat (map smut_prog (od_intersection m_name (s_members s) (s_members t)))).
  { f_equal. apply map_ext_in. intros p Hp. destruct (S1 p Hp) as [y Hy]. unfold smut_prog. rewrite Hy.
    destruct (mem_eqb _ _); [now injection Hy as <-|]. destruct (type_str _); simpl in Hy; [|discriminate]. now injection Hy as <-. }
  rewrite Ea. rewrite !map_concat_single with (f := fun m => SaDrop (m_name m)), map_concat_single with (f := fun m => SaAdd (m_name m) (m_type m)).
  assert (R := struct_run s t ms Ws Wt L). unfold sdrop_prog, sadd_prog in R.
  match type of R with run _ ?a _ = _ => set (acts := a) in * end.
  assert (X1 : exec_all E (struct_alter s acts) D
               = Some (set_obj (key_of (s_name t)) (Some (OStruct (want_members (s_members t)) (struct_comment d s))) D)).
  { rewrite <- En. unfold struct_alter. destruct acts as [|a acts'] eqn:Eacts.
    - simpl in R. injection R as <-. simpl. now rewrite set_obj_id.
    - cbn [exec_all exec]. rewrite HD. rewrite exec_sactions_run, R. reflexivity. }
  rewrite exec_all_app, X1. cbn [mbind option_bind].
  destruct (decide (d = DPg)) as [->|Hd].
  - destruct (comment_change (s_desc s) (s_desc t)) as [c|] eqn:Ec.
    + apply comment_change_some in Ec. subst c. cbn [exec_all exec]. rewrite set_obj_lookup. cbn [mbind option_bind]. now rewrite set_obj_set.
    + apply comment_change_none in Ec. simpl. unfold want_struct, struct_comment. now rewrite Ec.
  - assert ((match d with DPg => match comment_change (s_desc s) (s_desc t) with Some c => [SCommentType (s_name t) c] | None => [] end | _ => [] end) = []) as ->
      by (destruct d; congruence).
    simpl. unfold want_struct, struct_comment. destruct d; congruence || reflexivity.
Qed.
