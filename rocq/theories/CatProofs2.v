(** Dropping the objects of a namespace; schemas. *)
From Verif Require Import PyStr QuoteModel ObjectDict ObjectDictSpec ObjectDictProofs Types Objects SqlAst Ddl Mutate DbSpec CatSpec DbLemmas EqProofs TabProofs1 TabProofs2 TabProofs3 TabProofs4 TabProofs5 NsProofs1 NsProofs2 NsProofs3 NsProofs4 NsProofs5 CatProofs1.
From stdpp Require Import gmap strings.
Open Scope list_scope.

Definition p_tablecons (x : table) (v : option dbobj) : Prop := exists tb, v = Some (OTable tb) /\ dt_cons tb = want_cons (t_constraints x).
Lemma stable_tablecons K x v v' : soft K v v' -> p_tablecons x v -> p_tablecons x v'.
Proof.
  intros Hs (tb & -> & Hc). destruct (soft_some K _ v' Hs) as (y & -> & _ & _ & _ & H). destruct (H tb eq_refl) as (tb' & -> & R & _).
  exists tb'. split; [reflexivity|]. unfold rest in R. injection R as _ R _. congruence.
Qed.

Lemma drop_cons_exec E ks tb : base.NoDup (map k_name ks) -> (forall k, In k ks -> is_Some (dt_cons tb !! k_name k)) ->
  exists ks', exec_actions E (map (fun k => ADropConstraint (k_name k)) ks) tb = Some (DbTab (dt_cols tb) (dt_pk tb) ks' (dt_comment tb)).
Proof.
  revert tb. induction ks as [|k ks IH]; intros tb W H; [exists (dt_cons tb); now destruct tb|]. simpl in W. apply NoDup_cons in W as [N W].
  destruct (H k (or_introl eq_refl)) as [x Hx]. cbn [map exec_actions exec_action]. unfold exec_drop_constraint. rewrite Hx. cbn [mbind option_bind].
  apply (IH (DbTab (dt_cols tb) (dt_pk tb) (delete (k_name k) (dt_cons tb)) (dt_comment tb))); [exact W|]. intros j Ij. simpl. rewrite lookup_delete_ne; [apply H; now right|]. intros E'. apply N. rewrite E'. apply elem_of_list_In. now apply in_map.
Qed.
(** a table without its constraints *)
Definition p_nocons (v v' : option dbobj) : Prop :=
  exists tb ks, v = Some (OTable tb) /\ v' = Some (OTable (DbTab (dt_cols tb) (dt_pk tb) ks (dt_comment tb))).
Lemma drop_constraints_exec E x D : base.NoDup (map k_name (t_constraints x)) -> p_tablecons x (gobj D (tk x)) ->
  exists o, exec_all E (drop_constraints x) D = Some (set_obj (tk x) o D) /\ p_nocons (gobj D (tk x)) o.
Proof.
  intros W (tb & H1 & H2). unfold gobj, tk in *. unfold drop_constraints. destruct (table_constraints x) as [|k ks] eqn:Q.
  - exists (Some (OTable tb)). split; [|exists tb, (dt_cons tb); split; [exact H1|now destruct tb]]. simpl. now rewrite set_obj_id by exact H1.
  - rewrite <- Q. assert (W' : base.NoDup (map k_name (table_constraints x))) by (apply nodup_map_filter; exact W).
    destruct (drop_cons_exec E (table_constraints x) tb W') as (ks' & Ht).
    { intros j Ij. rewrite H2. unfold want_cons. rewrite (lookup_list_to_map k_name (fun k => k)).
      change (List.filter is_alter (t_constraints x)) with (table_constraints x). rewrite (find_by_in k_name _ j W' Ij). simpl. eauto. }
    exists (Some (OTable (DbTab (dt_cols tb) (dt_pk tb) ks' (dt_comment tb)))). split; [|exists tb, ks'; auto]. cbn [exec_all exec]. unfold upd_table. rewrite H1, Ht. reflexivity.
Qed.

Section Drop.
  Variables (d : dialect) (n : namespace) (Sc : gset string) (P : asrt).
  Hypothesis W : ns_wf d n.
  Hypothesis HE : forall e v, In e (n_enums n) -> P (ek e) v -> p_type v.
  Hypothesis HS : forall e v, In e (n_structs n) -> P (sk e) v -> p_type v.
  Hypothesis HT : forall e v, In e (n_tables n) -> P (tk e) v -> p_table v.
  Definition gone (k : okey) (v : option dbobj) : Prop :=
    (In k (map key_of (ns_names n)) -> v = None) /\ (~ In k (map key_of (ns_names n)) -> P k v).
  Lemma nodup_rev_keys {A B} (f : A -> B) l : base.NoDup (map f l) -> base.NoDup (map f (rev l)).
  Proof. rewrite map_rev. intros H. rewrite <- Permutation_rev. exact H. Qed.
  Lemma in_rev_keys {A B} (f : A -> B) l k : In k (map f (rev l)) <-> In k (map f l).
  Proof. rewrite map_rev. symmetry. apply in_rev. Qed.
  Lemma drop_objects_tri : tri (engine_of d) Sc P (drop_objects n) gone.
  Proof.
    set (B1 := after tk (fun _ v => v = None) (rev (n_tables n)) P).
    set (B2 := after sk (fun _ v => v = None) (rev (n_structs n)) B1).
    set (B3 := after ek (fun _ v => v = None) (rev (n_enums n)) B2).
    assert (T : tri (engine_of d) Sc P (drop_objects n) B3).
    { unfold drop_objects. eapply tri_app with (Q := B1); [|eapply tri_app with (Q := B2)].
      - rewrite map_concat_single. apply (tri_phase _ _ tk (fun e => [drop_table e])).
        { apply nodup_rev_keys. rewrite (mn_t d n W). apply nodup_pair, (nd_t d). exact W. }
        intros x D I _ Hx. apply in_rev in I. apply HT in Hx; [|exact I]. destruct Hx as [tb Hx]. exists None. split; [|reflexivity].
        unfold drop_table, tk, gobj in *. cbn [exec_all exec]. now rewrite Hx.
      - rewrite map_concat_single. apply (tri_phase _ _ sk (fun e => [drop_struct e])).
        { apply nodup_rev_keys. rewrite (mn_s d n W). apply nodup_pair, (nd_s d). exact W. }
        intros x D I _ Hx. apply in_rev in I. exists None. split; [|reflexivity]. apply drop_type_exec. change (key_of (s_name x)) with (sk x).
        assert (Hs : Ss n (s_key x)) by now apply in_map. assert (X := excl_n d n W (s_key x)).
        apply after_out in Hx; [now apply (HS x)|]. rewrite in_rev_keys, (mn_t d n W), (kn_s d n W x I), in_pair. fold (Ts n (s_key x)). tauto.
      - rewrite map_concat_single. apply (tri_phase _ _ ek (fun e => [drop_enum e])).
        { apply nodup_rev_keys. rewrite (mn_e d n W). apply nodup_pair, (nd_e d). exact W. }
        intros x D I _ Hx. apply in_rev in I. exists None. split; [|reflexivity]. apply drop_type_exec. change (key_of (e_name x)) with (ek x).
        assert (Hs : Es n (e_key x)) by now apply in_map. assert (X := excl_n d n W (e_key x)).
        apply after_out in Hx; [|rewrite in_rev_keys, (mn_s d n W), (kn_e d n W x I), in_pair; fold (Ss n (e_key x)); tauto].
        apply after_out in Hx; [now apply (HE x)|]. rewrite in_rev_keys, (mn_t d n W), (kn_e d n W x I), in_pair. fold (Ts n (e_key x)). tauto. }
    eapply tri_weaken; [| |exact T]; [auto|]. intros k v Hv. split.
    - rewrite in_keys. intros Hk. destruct (in_dec (fun a b => decide (a = b)) k (map ek (rev (n_enums n)))) as [He|He].
      { apply in_map_iff in He as (x & <- & I). destruct Hv as [Hv _]. now apply (Hv x). }
      apply after_out in Hv; [|exact He]. rewrite in_rev_keys in He.
      destruct (in_dec (fun a b => decide (a = b)) k (map sk (rev (n_structs n)))) as [Hs|Hs].
      { apply in_map_iff in Hs as (x & <- & I). destruct Hv as [Hv _]. now apply (Hv x). }
      apply after_out in Hv; [|exact Hs]. rewrite in_rev_keys in Hs.
      assert (Ht : In k (map tk (rev (n_tables n)))) by (rewrite in_rev_keys; tauto). apply in_map_iff in Ht as (x & <- & I). destruct Hv as [Hv _]. now apply (Hv x).
    - rewrite in_keys. intros Hk. apply after_out in Hv; [|rewrite in_rev_keys; tauto]. apply after_out in Hv; [|rewrite in_rev_keys; tauto]. apply after_out in Hv; [exact Hv|rewrite in_rev_keys; tauto].
  Qed.
End Drop.

(** ** Schemas *)
Lemma create_schemas_exec d ns D :
  base.NoDup (map n_name ns) -> (forall n, In n ns -> n_name n = ""%string \/ n_name n ∉ db_schemas D) ->
  exec_all (engine_of d) (flat_map (create_schema d) ns) D = Some (Db (db_schemas D ∪ cat_schemas ns) (db_objs D)).
Proof.
  revert D. induction ns as [|n ns IH]; intros D W H.
  - simpl. unfold cat_schemas. simpl. rewrite union_empty_r_L. now destruct D.
  - simpl in W. apply NoDup_cons in W as [N W]. cbn [flat_map]. rewrite exec_all_app.
    assert (X : exec_all (engine_of d) (create_schema d n) D = Some (Db (db_schemas D ∪ cat_schemas [n]) (db_objs D))).
    { unfold create_schema, cat_schemas. simpl. destruct (n_name n) as [|c r] eqn:En.
      - simpl. rewrite union_empty_r_L. now destruct D.
      - destruct (H n (or_introl eq_refl)) as [Z|Z]; [congruence|]. rewrite En in Z. simpl. rewrite bool_decide_false by exact Z. simpl.
        f_equal. f_equal. rewrite union_empty_r_L. apply union_comm_L. }
    rewrite X. cbn [mbind option_bind]. rewrite IH; [|exact W|].
    + simpl. f_equal. f_equal. rewrite <- union_assoc_L. f_equal. unfold cat_schemas. simpl. destruct (negb (n_name n =? "")%string); simpl; [|now rewrite union_empty_l_L].
      now rewrite union_empty_r_L.
    + intros m Im. simpl. destruct (H m (or_intror Im)) as [Z|Z]; [now left|]. right. intros Y. apply elem_of_union in Y as [Y|Y]; [contradiction|].
      unfold cat_schemas in Y. simpl in Y. destruct (negb (n_name n =? "")%string); simpl in Y; [|set_solver].
      apply N. apply elem_of_list_In. assert (E : n_name m = n_name n) by set_solver. rewrite <- E. now apply in_map.
Qed.

Lemma in_cat_schemas c x : x ∈ cat_schemas c <-> x <> ""%string /\ In x (map n_name c).
Proof.
  unfold cat_schemas. rewrite elem_of_list_to_set, elem_of_list_In, filter_In. rewrite negb_true_iff, String.eqb_neq. tauto.
Qed.

Lemma drop_schemas_exec d ns D :
  (forall n, In n ns -> n_name n <> ""%string -> n_name n ∈ db_schemas D /\ (cascades d = false -> forall k, fst k = n_name n -> db_objs D !! k = None)) ->
  base.NoDup (map n_name ns) ->
  exists D', exec_all (engine_of d) (flat_map (drop_schema d) ns) D = Some D' /\ db_schemas D' = db_schemas D ∖ cat_schemas ns
             /\ (forall k, fst k ∈ cat_schemas ns -> db_objs D' !! k = None)
             /\ (forall k, fst k ∉ cat_schemas ns -> db_objs D' !! k = db_objs D !! k).
Proof.
  revert D. induction ns as [|n ns IH]; intros D H W.
  - exists D. simpl. unfold cat_schemas. simpl. split; [reflexivity|]. split; [set_solver|]. split; [set_solver|reflexivity].
  - simpl in W. apply NoDup_cons in W as [N W]. rewrite elem_of_list_In in N. cbn [flat_map].
    assert (X : exists D1, exec_all (engine_of d) (drop_schema d n) D = Some D1 /\ db_schemas D1 = db_schemas D ∖ cat_schemas [n]
             /\ (forall k, fst k ∈ cat_schemas [n] -> db_objs D1 !! k = None)
             /\ (forall k, fst k ∉ cat_schemas [n] -> db_objs D1 !! k = db_objs D !! k)).
    { unfold drop_schema, cat_schemas. simpl. destruct (n_name n) as [|c r] eqn:En.
      - exists D. simpl. split; [reflexivity|]. split; [set_solver|]. split; [set_solver|reflexivity].
      - destruct (H n (or_introl eq_refl)) as [H1 H2]; [congruence|]. rewrite En in H1, H2. simpl. rewrite union_empty_r_L.
        set (b := match d with DPg | DDelta => true | _ => false end).
        assert (Eb : cascades d = b) by reflexivity. destruct b.
        + eexists. split; [reflexivity|]. simpl. split; [reflexivity|]. split.
          * intros k Hk. apply elem_of_singleton in Hk. rewrite map_filter_lookup. destruct (db_objs D !! k); simpl; [|reflexivity].
            case_option_guard as G; [simpl in G; contradiction|reflexivity].
          * intros k Hk. rewrite map_filter_lookup. destruct (db_objs D !! k); simpl; [|reflexivity]. case_option_guard as G; [reflexivity|].
            exfalso. apply Hk. apply elem_of_singleton. exact G.
        + rewrite bool_decide_true by exact H1. simpl. rewrite bool_decide_true.
          * eexists. split; [reflexivity|]. simpl. split; [reflexivity|]. split; [|reflexivity].
            intros k Hk. apply elem_of_singleton in Hk. apply H2; [exact Eb|exact Hk].
          * apply map_eq. intros k. rewrite lookup_empty, map_filter_lookup. destruct (db_objs D !! k) eqn:Q; simpl; [|reflexivity].
            case_option_guard as G; [|reflexivity]. simpl in G. assert (Z := H2 Eb k G). unfold okey in *. congruence. }
    destruct X as (D1 & X1 & X2 & X3 & X4). rewrite exec_all_app, X1. cbn [mbind option_bind].
    destruct (IH D1) as (D' & Y1 & Y2 & Y3 & Y4); [|exact W|].
    { intros m Im Hm. destruct (H m (or_intror Im) Hm) as [H1 H2]. assert (Nm : n_name m ∉ cat_schemas [n]).
      { rewrite in_cat_schemas. intros [_ [Z|[]]]. apply N. rewrite Z. now apply in_map. }
      split; [rewrite X2; set_solver|]. intros Hc k Hk. rewrite X4 by now rewrite Hk. now apply H2. }
    exists D'. split; [exact Y1|].
    assert (Sp : forall x, x ∈ cat_schemas (n :: ns) <-> x ∈ cat_schemas [n] \/ x ∈ cat_schemas ns) by (intros x; rewrite !in_cat_schemas; simpl; tauto).
    split; [|split].
    + rewrite Y2, X2. apply set_eq. intros x. rewrite !elem_of_difference, Sp. tauto.
    + intros k Hk. destruct (decide (fst k ∈ cat_schemas ns)) as [Z|Z]; [now apply Y3|]. rewrite Y4 by exact Z. apply X3. apply Sp in Hk. tauto.
    + intros k Hk. rewrite Sp in Hk. rewrite Y4 by tauto. apply X4. tauto.
Qed.
