(** The outcome of mutating a whole catalog. *)
From Verif Require Import PyStr QuoteModel ObjectDict ObjectDictSpec ObjectDictProofs Types Objects SqlAst Ddl Mutate DbSpec CatSpec MutSpec DbLemmas EqProofs TabProofs1 TabProofs2 TabProofs3 TabProofs4 TabProofs5 NsProofs1 NsProofs2 NsProofs3 NsProofs4 NsProofs5 CatProofs1 CatProofs2 CatProofs3.
From stdpp Require Import gmap strings.
Open Scope list_scope.

Lemma soft_kept s t v v' : soft (K s t) v v' -> kept s t v v'.
Proof.
  intros H. constructor.
  - intros ->. now apply (soft_none (K s t)).
  - intros x -> Hx. apply (soft_free (K s t) x v'); [|exact H]. destruct x as [vs|ms c|tb]; [exact I| |].
    + intros n ty Hn q Iq (e & He & E). apply (Hx e He). exists n, ty, q. auto.
    + intros n c Hn q Iq (e & He & E). apply (Hx e He). exists n, c, q. auto.
  - intros ms c ->. destruct (soft_some _ _ v' H) as (y & -> & _ & _ & Hs & _). destruct (Hs ms c eq_refl) as (ms' & -> & _ & Hd). exists ms'. split; [reflexivity|]. intros n. symmetry. apply Hd.
  - intros tb ->. destruct (soft_some _ _ v' H) as (y & -> & _ & _ & _ & Ht). destruct (Ht tb eq_refl) as (tb' & -> & R & Hc & Hd). exists tb'.
    unfold rest in R. injection R as R1 R2 R3. repeat split; auto; try (apply Hd; assumption).
    intros n c Hn. destruct (Hc n c Hn) as (ty & Hty & _). eauto.
Qed.

Section Out.
  Variables (d : dialect) (o : options) (s t : catalog) (D : db).
  Hypothesis Ws : cat_wf d s.
  Hypothesis Wt : cat_wf d t.
  Hypothesis C : cat_compat d s t.
  Hypothesis HD : has_cat d s D.
  Hypothesis NF : names_free s t D.
  Hypothesis OS : allow_drop_namespace o = true -> own_schemas d s t D.
  Let ns_create := od_difference n_name t s.
  Let ns_drop := od_difference n_name s t.
  Let pairs := od_intersection n_name s t.
  Let nm2 (p : namespace * namespace) := n_name (fst p).
  Let P0 := P0 s t D.
  Let P1 : asrt := grouped n_name (fun n => made d n P0 (bare d)) ns_create P0.
  Let tabs1 := flat_map n_tables ns_create.
  Let P2 : asrt := after tk (fun e v => v = Some (OTable (want_tab d e))) tabs1 P1.
  Let P3 : asrt := grouped nm2 (fun p k v => ns_post d o (fst p) (snd p) P0 (snd k) v) pairs P2.
  Let tabs4 := flat_map n_tables ns_drop.
  Let P4 : asrt := after tk (fun x v => exists v1, P0 (tk x) v1 /\ p_nocons v1 v) tabs4 P3.
  Let P5 : asrt := grouped n_name (fun n => gone n P4) ns_drop P4.

  Lemma tabs_scope c l k : cat_wf d c -> (forall n, In n l -> In n c) -> In k (map tk (flat_map n_tables l)) -> In (fst k) (map n_name l).
  Proof.
    intros W Hl Hk. apply in_map_iff in Hk as (x & <- & Ix). apply in_flat_map in Ix as (m & Im & Ix).
    rewrite (kn_t d m (cw_ns _ _ W m (Hl m Im)) x Ix). cbn [fst]. now apply in_map.
  Qed.
  Lemma create_in_t n : In n ns_create -> In n t. Proof. intros I. now apply difference_in in I. Qed.
  Lemma drop_in_s n : In n ns_drop -> In n s. Proof. intros I. now apply difference_in in I. Qed.
  Lemma drop_names x : In x (map n_name ns_drop) <-> In x (map n_name s) /\ ~ In x (map n_name t).
  Proof. apply in_diff_keys. Qed.
  Lemma create_names x : In x (map n_name ns_create) <-> In x (map n_name t) /\ ~ In x (map n_name s).
  Proof. apply in_diff_keys. Qed.
  Lemma pair_names x : In x (map nm2 pairs) <-> In x (map n_name s) /\ In x (map n_name t).
  Proof. apply in_inter_keys. Qed.

  Lemma P4_out k v : ~ In (fst k) (map n_name ns_drop) -> P4 k v -> P3 k v.
  Proof. intros N H. apply after_out in H; [exact H|]. intros Hk. apply N. apply (tabs_scope s); auto. apply drop_in_s. Qed.
  Lemma P2_out k v : ~ In (fst k) (map n_name ns_create) -> P2 k v -> P1 k v.
  Proof. intros N H. apply after_out in H; [exact H|]. intros Hk. apply N. apply (tabs_scope t); auto. apply create_in_t. Qed.
  Lemma P4_common a b k v : common_ns s t a b -> fst k = n_name a -> P4 k v -> ns_post d o a b P0 (snd k) v.
  Proof.
    intros (Ia & Ib & E) Ek H. apply P4_out in H.
    - destruct H as [H _]. exact (H (a, b) (proj2 (in_pairs d s t Wt a b) (conj Ia (conj Ib E))) Ek).
    - rewrite drop_names, Ek, E. intros [_ N]. apply N. now apply in_map.
  Qed.
  Lemma P4_create n k v : In n ns_create -> fst k = n_name n -> P4 k v ->
    (forall x, In (k, x) (ns_objs d n) -> v = Some x) /\ (~ In k (map key_of (ns_names n)) -> P0 k v).
  Proof.
    intros I Ek H. assert (It := create_in_t n I). assert (Ns : ~ In (n_name n) (map n_name s)) by now apply difference_in in I.
    assert (W := cw_ns _ _ Wt n It).
    apply P4_out in H; [|rewrite drop_names, Ek; tauto]. destruct H as [_ H]. assert (H2 : P2 k v) by (apply H; rewrite pair_names, Ek; tauto). clear H. split.
    - intros x Hx. apply in_ns_objs in Hx as [(e & Ie & -> & ->)|[(e & Ie & -> & ->)|(e & Ie & -> & ->)]].
      + assert (H1 : P1 (ek e) v).
        { apply after_out in H2; [exact H2|]. intros Hk. apply in_map_iff in Hk as (y & Ey & Iy). apply in_flat_map in Iy as (m & Im & Iy).
          assert (m = n). { apply (ns_unique d t); auto using create_in_t. rewrite <- Ey, (kn_t d m (cw_ns _ _ Wt m (create_in_t m Im)) y Iy) in Ek. exact Ek. }
          subst m. assert (X := excl_n d n W (e_key e)). rewrite (kn_t d n W y Iy), (kn_e d n W e Ie) in Ey. injection Ey as Ey.
          apply (proj1 (proj2 X)); [now apply in_map|]. unfold Ts. rewrite <- Ey. now apply in_map. }
        destruct H1 as [H1 _]. apply (H1 n I Ek); auto.
      + assert (H1 : P1 (sk e) v).
        { apply after_out in H2; [exact H2|]. intros Hk. apply in_map_iff in Hk as (y & Ey & Iy). apply in_flat_map in Iy as (m & Im & Iy).
          assert (m = n). { apply (ns_unique d t); auto using create_in_t. rewrite <- Ey, (kn_t d m (cw_ns _ _ Wt m (create_in_t m Im)) y Iy) in Ek. exact Ek. }
          subst m. assert (X := excl_n d n W (s_key e)). rewrite (kn_t d n W y Iy), (kn_s d n W e Ie) in Ey. injection Ey as Ey.
          apply (proj2 (proj2 X)); [now apply in_map|]. unfold Ts. rewrite <- Ey. now apply in_map. }
        destruct H1 as [H1 _]. apply (H1 n I Ek); auto.
      + destruct H2 as [H2 _]. apply (H2 e); [|reflexivity]. apply in_flat_map. eauto.
    - intros N. assert (H1 : P1 k v).
      { apply after_out in H2; [exact H2|]. intros Hk. apply in_map_iff in Hk as (y & Ey & Iy). apply in_flat_map in Iy as (m & Im & Iy).
        assert (m = n). { apply (ns_unique d t); auto using create_in_t. rewrite <- Ey, (kn_t d m (cw_ns _ _ Wt m (create_in_t m Im)) y Iy) in Ek. exact Ek. }
        subst m. apply N. rewrite (in_keys n), <- Ey. right. right. now apply in_map. }
      destruct H1 as [H1 _]. destruct (H1 n I Ek) as (_ & _ & _ & H3). auto.
  Qed.
  Lemma P4_other k v : ~ In (fst k) (map n_name s) -> ~ In (fst k) (map n_name t) -> P4 k v -> P0 k v.
  Proof.
    intros N1 N2 H. apply P4_out in H; [|rewrite drop_names; tauto]. destruct H as [_ H]. rewrite pair_names in H.
    assert (H2 : P2 k v) by tauto. apply P2_out in H2; [|rewrite create_names; tauto]. destruct H2 as [_ H2]. apply H2. rewrite create_names; tauto.
  Qed.

  Lemma catalog_run l : mutate_sorted d o s t = Ok l ->
    exists D', exec_all (engine_of d) l D = Some D'
    /\ db_schemas D' = (if allow_drop_namespace o then (db_schemas D ∪ cat_schemas ns_create) ∖ cat_schemas ns_drop else db_schemas D ∪ cat_schemas ns_create)
    /\ (forall k, ~ In (fst k) (map n_name ns_drop) -> P4 k (gobj D' k))
    /\ (forall n k, In n ns_drop -> fst k = n_name n ->
        if allow_drop_namespace o
        then (In k (map key_of (ns_names n)) -> gobj D' k = None) /\ (n_name n <> ""%string -> gobj D' k = None)
             /\ (~ In k (map key_of (ns_names n)) -> n_name n = ""%string -> P0 k (gobj D' k))
        else P4 k (gobj D' k)).
  Proof.
    intros H. unfold mutate_sorted in H. fold ns_create ns_drop pairs in H.
    match type of H with bind ?z _ = _ => destruct z as [l1|] eqn:H1; simpl in H; [|discriminate] end.
    match type of H with bind ?z _ = _ => destruct z as [l3|] eqn:H3; simpl in H; [|discriminate] end.
    injection H as <-. set (Sc := db_schemas D ∪ cat_schemas ns_create).
    set (D1 := Db Sc (db_objs D)).
    assert (X0 : exec_all (engine_of d) (flat_map (create_schema d) ns_create) D = Some D1).
    { apply create_schemas_exec; [exact (nodup_create d s t Wt)|]. intros n I. apply difference_in in I as [It Is]. exact (nf_schemas _ _ _ NF n It Is). }
    assert (T : tri (engine_of d) Sc P0 (l1 ++ flat_map (ns_add_constraints d) ns_create ++ l3 ++ flat_map ns_drop_constraints ns_drop) P4).
    { eapply tri_app with (Q := P1); [now apply ph1|]. eapply tri_app with (Q := P2); [now apply ph2|].
      eapply tri_app with (Q := P3); [now apply ph3|]. now apply ph4. }
    assert (X1 : forall k, P0 k (gobj D1 k)) by (intros k; unfold P0, CatProofs3.P0; reflexivity).
    destruct (T D1 eq_refl X1) as (D4 & X4 & S4 & Q4).
    rewrite exec_all_app, X0. cbn [mbind option_bind]. rewrite !app_assoc. rewrite exec_all_app, <- !app_assoc, X4. cbn [mbind option_bind].
    assert (Hc : allow_drop_namespace o = true \/ allow_drop_namespace o = false) by (clear; destruct (allow_drop_namespace o); auto).
    destruct Hc as [Ho|Ho]; rewrite Ho.
    - destruct (ph5 d o s t D Ws Wt HD D4 S4 Q4) as (D5 & X5 & S5 & Q5). change (od_difference n_name s t) with ns_drop in X5. rewrite exec_all_app, X5. cbn [mbind option_bind].
      assert (Nn : forall n k, In n ns_drop -> fst k = n_name n -> ~ In k (map key_of (ns_names n)) -> P0 k (gobj D5 k)).
      { intros n k In_ Ek Nk. destruct (Q5 k) as [Q _]. destruct (Q n In_ Ek) as [_ G]. apply G in Nk as G'.
        apply (P4_dropped d o s t D Ws Wt n); auto. intros Z. apply Nk. apply in_keys. tauto. }
      destruct (drop_schemas_exec d ns_drop D5) as (D' & X6 & S6 & Z1 & Z2).
      { intros n In_ Hn. apply difference_in in In_ as In'. destruct In' as [Is It]. split.
        - rewrite S5. unfold Sc. apply elem_of_union_l. destruct (proj1 HD n Is) as [Z|Z]; [contradiction|exact Z].
        - intros Hcas k Ek. destruct (in_dec (fun a b => decide (a = b)) k (map key_of (ns_names n))) as [Hk|Hk].
          + destruct (Q5 k) as [Q _]. destruct (Q n In_ Ek) as [G _]. now apply G.
          + assert (G := Nn n k In_ Ek Hk). eapply stable_none; [exact G|]. apply (OS Ho Hcas n k Is It Hn Ek).
            intros Hc. apply in_cat_keys in Hc as (m & Im & Hm). apply Hk. assert (m = n); [|now subst].
            apply (ns_unique d s); auto. apply (key_scope d s) in Hm; auto. congruence. }
      { exact (nodup_drop d s t Ws). }
      exists D'. split; [exact X6|]. split; [rewrite S6, S5; reflexivity|]. split.
      + intros k Hk. unfold gobj. rewrite Z2 by (rewrite in_cat_schemas; tauto). destruct (Q5 k) as [_ Q]. exact (Q Hk).
      + intros n k In_ Ek. destruct (String.eqb_spec (n_name n) "") as [En|En].
        * assert (Y : gobj D' k = gobj D5 k) by (apply Z2; rewrite in_cat_schemas, Ek, En; tauto). rewrite Y.
          destruct (Q5 k) as [Q _]. destruct (Q n In_ Ek) as [G1 G2]. split; [exact G1|]. split; [contradiction|]. intros Nk _. exact (Nn n k In_ Ek Nk).
        * assert (Y : gobj D' k = None). { apply Z1. rewrite in_cat_schemas, Ek. split; [exact En|now apply in_map]. }
          split; [auto|]. split; [auto|contradiction].
    - exists D4. split; [reflexivity|]. split; [exact S4|]. split; auto.
  Qed.

  Lemma P0_kept k v : P0 k v -> kept s t (db_objs D !! k) v.
  Proof. apply soft_kept. Qed.

  Theorem catalog_exec l : mutate_sorted d o s t = Ok l ->
    exists D', exec_all (engine_of d) l D = Some D' /\ outcome d o s t D D'.
  Proof.
    intros H. destruct (catalog_run l H) as (D' & X & HS & Q & R). exists D'. split; [exact X|].
    assert (RN : forall n, removed_ns s t n -> In n ns_drop) by (intros n [I1 I2]; apply difference_in; auto).
    assert (QC : forall a b k, common_ns s t a b -> fst k = n_name a -> ns_post d o a b P0 (snd k) (gobj D' k)).
    { intros a b k Hab Ek. apply P4_common; [exact Hab|exact Ek|]. apply Q. destruct Hab as (Ia & Ib & E). rewrite drop_names, Ek, E. intros [_ N]. apply N. now apply in_map. }
    assert (DlN : forall a b n, common_ns s t a b -> Dl a b n -> db_objs D !! pr (n_name a) n = None).
    { intros a b n (Ia & Ib & E) (e & He & ->). assert (Hr := dropped_replaced d s t Wt C a b e Ia Ib E He). destruct He as [Ie _].
      assert (Ep : parked e = (n_name a, deleted (e_key e))).
      { unfold parked. assert (Z := ek_s d a (cw_ns _ _ Ws a Ia) e Ie). unfold ek in Z. rewrite Z. reflexivity. }
      unfold pr. rewrite <- Ep. exact (nf_parked _ _ _ NF e Hr). }
    constructor.
    - split.
      + intros n It. destruct (String.eqb_spec (n_name n) "") as [En|En]; [now left|right]. rewrite HS.
        assert (Y : n_name n ∈ db_schemas D ∪ cat_schemas ns_create).
        { destruct (in_dec string_dec (n_name n) (map n_name s)) as [Is|Is].
          - apply elem_of_union_l. apply in_map_iff in Is as (a & Ea & Ia). destruct (proj1 HD a Ia) as [Z|Z]; congruence.
          - apply elem_of_union_r. apply in_cat_schemas. split; [exact En|]. apply create_names. split; [now apply in_map|exact Is]. }
        destruct (allow_drop_namespace o); [|exact Y]. apply elem_of_difference. split; [exact Y|]. rewrite in_cat_schemas, drop_names. intros (_ & _ & N). apply N. now apply in_map.
      + intros n k x It Hx. assert (W := cw_ns _ _ Wt n It).
        assert (Ek : fst k = n_name n). { apply (key_scope d t); auto. rewrite <- (ns_objs_keys d). apply (in_map fst) in Hx. exact Hx. }
        destruct (in_dec string_dec (n_name n) (map n_name s)) as [Is|Is].
        * apply in_map_iff in Is as (a & Ea & Ia). assert (B := QC a n k (conj Ia (conj It Ea)) (eq_trans Ek (eq_sym Ea))).
          apply in_ns_objs in Hx as [(e & Ie & -> & ->)|[(e & Ie & -> & ->)|(e & Ie & -> & ->)]].
          { apply (np_enum _ _ _ _ _ _ _ B e Ie). reflexivity. }
          { apply (np_struct _ _ _ _ _ _ _ B e Ie). reflexivity. }
          { apply (np_table _ _ _ _ _ _ _ B e Ie). reflexivity. }
        * assert (I : In n ns_create) by (apply difference_in; auto). apply (P4_create n k (gobj D' k) I Ek); [|exact Hx]. apply Q. rewrite drop_names, Ek. tauto.
    - intros x. rewrite HS. rewrite !in_cat_schemas.
      assert (Y : x ∈ db_schemas D ∪ cat_schemas ns_create <-> (x <> ""%string /\ In x (map n_name t)) \/ x ∈ db_schemas D).
      { rewrite elem_of_union, in_cat_schemas, create_names. split; [tauto|]. intros [[N1 N2]|N]; [|tauto].
        destruct (in_dec string_dec x (map n_name s)) as [Is|Is]; [|tauto]. left. apply in_map_iff in Is as (a & Ea & Ia). destruct (proj1 HD a Ia) as [Z|Z]; congruence. }
      destruct (allow_drop_namespace o).
      + rewrite elem_of_difference, Y, in_cat_schemas, drop_names. assert (TT : true = true) by reflexivity. destruct (string_dec x ""), (in_dec string_dec x (map n_name t)), (in_dec string_dec x (map n_name s)); tauto.
      + rewrite Y. intuition discriminate.
    - intros Ho n k Hn Hk. assert (Ek := key_scope d s n k Ws (proj1 Hn) Hk). assert (Z := R n k (RN n Hn) Ek). rewrite Ho in Z. exact (proj1 Z Hk).
    - intros Ho n k Hn Nn Ek. assert (Z := R n k (RN n Hn) Ek). rewrite Ho in Z. exact (proj1 (proj2 Z) Nn).
    - intros Ho n k Hn Ek Nk. assert (Z := R n k (RN n Hn) Ek). rewrite Ho in Z. apply P0_kept. apply (P4_dropped d o s t D Ws Wt n); auto.
    - intros Ho n x Hn Ix. assert (Ek : fst (tk x) = n_name n) by now rewrite (kn_t d n (cw_ns _ _ Ws n (proj1 Hn)) x Ix).
      assert (Z := R n (tk x) (RN n Hn) Ek). rewrite Ho in Z. destruct Z as [Z _]. destruct (Z x) as (v1 & V1 & tb & ks & -> & V2); [|reflexivity|].
      { apply in_flat_map. eauto. }
      exists tb, ks. split; [apply P0_kept; exact V1|exact V2].
    - intros a b x Hab Ix Nx. assert (Wa := cw_ns _ _ Ws a (proj1 Hab)). assert (Ek := kn_t d a Wa x Ix). change (key_of (t_name x)) with (tk x).
      assert (B := QC a b (tk x) Hab (f_equal fst Ek)). rewrite Ek in B. cbn [snd] in B. rewrite <- Ek in B.
      assert (Tx : Ts a (t_key x)) by now apply in_map. assert (Xx := excl_n d a Wa (t_key x)).
      assert (Hc : allow_drop_table o = true \/ allow_drop_table o = false) by (clear; destruct (allow_drop_table o); auto). destruct Hc as [Ho|Ho]; rewrite Ho.
      + apply (np_drop _ _ _ _ _ _ _ B Nx). left. auto.
      + apply P0_kept. rewrite Ek at 1. apply (np_keep _ _ _ _ _ _ _ B Nx); [|auto|tauto|tauto].
        intros Hd. apply DlN in Hd; [|exact Hab]. unfold pr in Hd. rewrite <- Ek in Hd.
        rewrite (proj2 HD a (tk x) (OTable (want_tab d x)) (proj1 Hab)) in Hd; [discriminate|]. apply in_ns_objs. right. right. eauto.
    - intros a b x Hab Ix Nx. assert (Wa := cw_ns _ _ Ws a (proj1 Hab)). assert (Ek := kn_s d a Wa x Ix). change (key_of (s_name x)) with (sk x).
      assert (B := QC a b (sk x) Hab (f_equal fst Ek)). rewrite Ek in B. cbn [snd] in B. rewrite <- Ek in B.
      assert (Tx : Ss a (s_key x)) by now apply in_map. assert (Xx := excl_n d a Wa (s_key x)).
      assert (Hc : allow_drop_struct o = true \/ allow_drop_struct o = false) by (clear; destruct (allow_drop_struct o); auto). destruct Hc as [Ho|Ho]; rewrite Ho.
      + apply (np_drop _ _ _ _ _ _ _ B Nx). right. left. auto.
      + apply P0_kept. rewrite Ek at 1. apply (np_keep _ _ _ _ _ _ _ B Nx); [|tauto|auto|tauto].
        intros Hd. apply DlN in Hd; [|exact Hab]. unfold pr in Hd. rewrite <- Ek in Hd.
        rewrite (proj2 HD a (sk x) (want_struct d x) (proj1 Hab)) in Hd; [discriminate|]. apply in_ns_objs. right. left. eauto.
    - intros a b x Hab Ix Nx. assert (Wa := cw_ns _ _ Ws a (proj1 Hab)). assert (Ek := kn_e d a Wa x Ix). change (key_of (e_name x)) with (ek x).
      assert (B := QC a b (ek x) Hab (f_equal fst Ek)). rewrite Ek in B. cbn [snd] in B. rewrite <- Ek in B.
      assert (Tx : Es a (e_key x)) by now apply in_map. assert (Xx := excl_n d a Wa (e_key x)).
      assert (Hc : allow_drop_enum o = true \/ allow_drop_enum o = false) by (clear; destruct (allow_drop_enum o); auto). destruct Hc as [Ho|Ho]; rewrite Ho.
      + apply (np_drop _ _ _ _ _ _ _ B Nx). right. right. auto.
      + apply P0_kept. rewrite Ek at 1. apply (np_keep _ _ _ _ _ _ _ B Nx); [|tauto|tauto|auto].
        intros Hd. apply DlN in Hd; [|exact Hab]. unfold pr in Hd. rewrite <- Ek in Hd.
        rewrite (proj2 HD a (ek x) (want_enum x) (proj1 Hab)) in Hd; [discriminate|]. apply in_ns_objs. left. eauto.
    - intros e (a & b & x & Ia & Ib & E & Ie & Ix & En & Ne).
      assert (Ep : parked e = (n_name a, deleted (e_key e))).
      { unfold parked. assert (Z := ek_s d a (cw_ns _ _ Ws a Ia) e Ie). unfold ek in Z. rewrite Z. reflexivity. }
      assert (B := QC a b (parked e) (conj Ia (conj Ib E)) (f_equal fst Ep)). rewrite Ep in B at 1. cbn [snd] in B.
      assert (Z := np_soft _ _ _ _ _ _ _ B). apply Z. exists e. split; [|reflexivity]. split; [exact Ie|]. unfold Tt, e_key. rewrite En. apply in_map_iff. exists x. auto.
    - intros k Ns Nt Np Nd. apply P0_kept. change (db_objs D' !! k) with (gobj D' k).
      destruct (in_dec string_dec (fst k) (map n_name s)) as [Is|Is].
      + apply in_map_iff in Is as (a & Ea & Ia). assert (Nk : ~ In k (map key_of (ns_names a))) by (intros Z; apply Ns, in_cat_keys; eauto).
        destruct (in_dec string_dec (fst k) (map n_name t)) as [It|It].
        * apply in_map_iff in It as (b & Eb & Ib). assert (Hab : common_ns s t a b) by (split; [exact Ia|split; [exact Ib|congruence]]).
          assert (B := QC a b k Hab (eq_sym Ea)). destruct k as [k1 k2]. cbn [fst snd] in *. subst k1. apply (np_keep _ _ _ _ _ _ _ B).
          { intros Hin. apply Nt. apply in_cat_keys. exists b. split; [exact Ib|]. apply in_map_iff in Hin as (q & <- & Iq). rewrite <- Eb. rewrite <- (scope_key d b q (cw_ns _ _ Wt b Ib) Iq). now apply in_map. }
          { intros (e & He & ->). assert (Hr := dropped_replaced d s t Wt C a b e Ia Ib (proj2 (proj2 Hab)) He). apply (Np e Hr). unfold parked.
            destruct He as [Ie _]. assert (Z := ek_s d a (cw_ns _ _ Ws a Ia) e Ie). unfold ek in Z. rewrite Z. reflexivity. }
          { intros Hin. exfalso. apply Nk. rewrite in_keys. right. right. rewrite (mn_t d a (cw_ns _ _ Ws a Ia)). now apply in_pair. }
          { intros Hin. exfalso. apply Nk. rewrite in_keys. right. left. rewrite (mn_s d a (cw_ns _ _ Ws a Ia)). now apply in_pair. }
          { intros Hin. exfalso. apply Nk. rewrite in_keys. left. rewrite (mn_e d a (cw_ns _ _ Ws a Ia)). now apply in_pair. }
        * assert (Hr : removed_ns s t a) by (split; [exact Ia|congruence]). assert (Z := R a k (RN a Hr) (eq_sym Ea)).
          assert (Hc : allow_drop_namespace o = true \/ allow_drop_namespace o = false) by (clear; destruct (allow_drop_namespace o); auto). destruct Hc as [Ho|Ho]; rewrite Ho in Z.
          { destruct Z as (_ & _ & Z). apply Z; [exact Nk|]. destruct (String.eqb_spec (n_name a) "") as [En|En]; [exact En|]. exfalso. apply (Nd Ho a Hr En). congruence. }
          { apply (P4_dropped d o s t D Ws Wt a); auto. intros Y. apply Nk. rewrite in_keys. tauto. }
      + assert (Q' : P4 k (gobj D' k)) by (apply Q; rewrite drop_names; tauto).
        destruct (in_dec string_dec (fst k) (map n_name t)) as [It|It]; [|now apply P4_other].
        apply in_map_iff in It as (b & Eb & Ib). assert (I : In b ns_create) by (apply difference_in; split; [exact Ib|]; now rewrite Eb).
        apply (P4_create b k (gobj D' k) I (eq_sym Eb)); [exact Q'|]. intros Z. apply Nt, in_cat_keys. eauto.
  Qed.
End Out.
Print Assumptions catalog_exec.
