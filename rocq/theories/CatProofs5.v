(** Mutation of catalogs, sorted first; exact databases. *)
From Verif Require Import PyStr QuoteModel ObjectDict ObjectDictSpec ObjectDictProofs Types Objects SqlAst Ddl Mutate TopoSpec SortSpec DbSpec CatSpec MutSpec DbLemmas EqProofs TabProofs1 TabProofs2 NsProofs3 NsProofs4 NsProofs5 CatProofs1 CatProofs2 CatProofs3 CatProofs4 SortProofs.
From stdpp Require Import gmap strings.
Open Scope list_scope.

(** ** Order of namespaces does not matter *)
Section Perm.
  Variables (d : dialect) (s s' t t' : catalog).
  Hypothesis Ps : Permutation s s'.
  Hypothesis Pt : Permutation t t'.
  Lemma is_ n : In n s <-> In n s'. Proof. split; apply Permutation_in; [exact Ps|now symmetry]. Qed.
  Lemma it_ n : In n t <-> In n t'. Proof. split; apply Permutation_in; [exact Pt|now symmetry]. Qed.
  Lemma replaced_perm e : replaced s t e <-> replaced s' t' e.
  Proof. unfold replaced. setoid_rewrite is_. setoid_rewrite it_. reflexivity. Qed.
End Perm.
Lemma wf_perm d c c' : Permutation c c' -> cat_wf d c -> cat_wf d c'.
Proof.
  intros P W. constructor.
  - rewrite <- P. exact (cw_names _ _ W).
  - intros n I. apply (cw_ns _ _ W). eapply Permutation_in; [symmetry; exact P|exact I].
Qed.
Lemma has_perm d c c' D : Permutation c c' -> has_cat d c D -> has_cat d c' D.
Proof.
  intros P [H1 H2]. split.
  - intros n I. apply H1. eapply Permutation_in; [symmetry; exact P|exact I].
  - intros n k x I. apply H2. eapply Permutation_in; [symmetry; exact P|exact I].
Qed.
Lemma keys_perm c c' k : Permutation c c' -> In k (cat_keys c) <-> In k (cat_keys c').
Proof. intros P. rewrite !in_cat_keys. setoid_rewrite (is_ c c' P). reflexivity. Qed.
Lemma names_perm c c' x : Permutation c c' -> In x (map n_name c) <-> In x (map n_name c').
Proof. intros P. split; apply Permutation_in; [now apply Permutation_map|symmetry; now apply Permutation_map]. Qed.
Lemma schemas_perm c c' : Permutation c c' -> cat_schemas c = cat_schemas c'.
Proof. intros P. apply set_eq. intros x. rewrite !in_cat_schemas. now rewrite (names_perm c c' x P). Qed.

Section Perm2.
  Variables (d : dialect) (s s' t t' : catalog).
  Hypothesis Ps : Permutation s s'.
  Hypothesis Pt : Permutation t t'.
  Let R e := replaced_perm s s' t t' Ps Pt e.
  Lemma compat_perm : cat_compat d s t -> cat_compat d s' t'.
  Proof.
    intros C. constructor.
    - intros a b Ia Ib. apply (cc_ns _ _ _ C); [now apply (is_ s s' Ps)|now apply (is_ t t' Pt)].
    - intros e n ty q He In_. apply (cc_free _ _ _ C e n ty q); [now apply R|now apply (is_ t t' Pt)].
    - intros e He. rewrite <- (keys_perm t t' _ Pt). apply (cc_parked _ _ _ C). now apply R.
  Qed.
  Lemma free_perm D : names_free s t D -> names_free s' t' D.
  Proof.
    intros C. constructor.
    - intros k. rewrite <- (keys_perm t t' _ Pt), <- (keys_perm s s' _ Ps). apply (nf_keys _ _ _ C).
    - intros n. rewrite <- (is_ t t' Pt), <- (names_perm s s' _ Ps). apply (nf_schemas _ _ _ C).
    - intros e He. apply (nf_parked _ _ _ C). now apply R.
  Qed.
  Lemma own_perm D : own_schemas d s t D -> own_schemas d s' t' D.
  Proof.
    intros H Hc n k. rewrite <- (is_ s s' Ps), <- (names_perm t t' _ Pt), <- (keys_perm s s' _ Ps). apply (H Hc).
  Qed.
  Lemma kept_perm v v' : kept s' t' v v' -> kept s t v v'.
  Proof. intros [K1 K2 K3 K4]. constructor; auto. intros x Hx Hn. apply K2; [exact Hx|]. intros e He. apply Hn. now apply R. Qed.
  Lemma outcome_perm o D D' : outcome d o s' t' D D' -> outcome d o s t D D'.
  Proof.
    assert (CN : forall a b, common_ns s t a b -> common_ns s' t' a b) by (intros a b; unfold common_ns; now rewrite (is_ s s' Ps), (is_ t t' Pt)).
    assert (RN : forall n, removed_ns s t n <-> removed_ns s' t' n) by (intros n; unfold removed_ns; now rewrite (is_ s s' Ps), (names_perm t t' _ Pt)).
    intros O. constructor.
    - eapply has_perm; [symmetry; exact Pt|]. exact (oc_target _ _ _ _ _ _ O).
    - rewrite (schemas_perm s s' Ps), (schemas_perm t t' Pt). exact (oc_schemas _ _ _ _ _ _ O).
    - intros Ho n k Hn. apply (oc_ns_gone _ _ _ _ _ _ O Ho). now apply RN.
    - intros Ho n k Hn. apply (oc_schema_gone _ _ _ _ _ _ O Ho). now apply RN.
    - intros Ho n k Hn Hk Nk. apply kept_perm. apply (oc_ns_kept_type _ _ _ _ _ _ O Ho n); auto. now apply RN.
    - intros Ho n x Hn Ix. destruct (oc_ns_kept_table _ _ _ _ _ _ O Ho n x) as (tb & ks & H1 & H2); [now apply RN|exact Ix|].
      exists tb, ks. split; [now apply kept_perm|exact H2].
    - intros a b x Hab Ix Nx. assert (Z := oc_table _ _ _ _ _ _ O a b x (CN a b Hab) Ix Nx). destruct (allow_drop_table o); [exact Z|now apply kept_perm].
    - intros a b x Hab Ix Nx. assert (Z := oc_struct _ _ _ _ _ _ O a b x (CN a b Hab) Ix Nx). destruct (allow_drop_struct o); [exact Z|now apply kept_perm].
    - intros a b x Hab Ix Nx. assert (Z := oc_enum _ _ _ _ _ _ O a b x (CN a b Hab) Ix Nx). destruct (allow_drop_enum o); [exact Z|now apply kept_perm].
    - intros e He. apply (oc_parked _ _ _ _ _ _ O). now apply R.
    - intros k Ks Kt Kp Kn. apply kept_perm. apply (oc_frame _ _ _ _ _ _ O).
      + now rewrite <- (keys_perm s s' _ Ps).
      + now rewrite <- (keys_perm t t' _ Pt).
      + intros e He. apply Kp. now apply R.
      + intros Ho n Hn. apply Kn; [exact Ho|now apply RN].
  Qed.
End Perm2.

Lemma mutate_catalog_parts d o s t s' t' l : base.NoDup (map n_name s) -> base.NoDup (map n_name t) ->
  mutate_catalog d o s t = Ok (s', t', l) -> Permutation s s' /\ Permutation t t' /\ mutate_sorted d o s' t' = Ok l.
Proof.
  intros Ns Nt H. unfold mutate_catalog in H.
  assert (Cs := cat_sort_correct s (proj1 (NoDup_ListNoDup _) Ns)). assert (Ct := cat_sort_correct t (proj1 (NoDup_ListNoDup _) Nt)).
  destruct (cat_sort s) as [s1|] eqn:E1; simpl in H; [|discriminate].
  destruct (cat_sort t) as [t1|] eqn:E2; simpl in H; [|discriminate].
  destruct (mutate_sorted d o s1 t1) as [l1|] eqn:E3; simpl in H; [|discriminate]. injection H as <- <- <-.
  destruct Cs as [[Cs _] _], Ct as [[Ct _] _]. auto.
Qed.

Theorem mutation_outcome d o s t s' t' l D :
  mutate_catalog d o s t = Ok (s', t', l) -> cat_wf d s -> cat_wf d t -> cat_compat d s t ->
  has_cat d s D -> names_free s t D -> (allow_drop_namespace o = true -> own_schemas d s t D) ->
  exists D', exec_all (engine_of d) l D = Some D' /\ outcome d o s t D D'.
Proof.
  intros H Ws Wt C HD NF OS. apply mutate_catalog_parts in H as (Ps & Pt & H); [|exact (cw_names _ _ Ws)|exact (cw_names _ _ Wt)].
  destruct (catalog_exec d o s' t' D (wf_perm d s s' Ps Ws) (wf_perm d t t' Pt Wt) (compat_perm d s s' t t' Ps Pt C)
    (has_perm d s s' D Ps HD) (free_perm s s' t t' Ps Pt D NF) (fun Ho => own_perm d s s' t t' Ps Pt D (OS Ho)) l H) as (D' & X & O).
  exists D'. split; [exact X|]. eapply outcome_perm; eauto.
Qed.

(** ** Exact databases *)
Lemma cat_objs_keys d c : map fst (flat_map (ns_objs d) c) = cat_keys c.
Proof.
  unfold cat_keys. induction c as [|n c IH]; [reflexivity|]. simpl. rewrite !map_app, IH, ns_objs_keys. reflexivity.
Qed.
Lemma nodup_keys d c : cat_wf d c -> base.NoDup (cat_keys c).
Proof.
  unfold cat_keys. intros W. assert (Hi : forall n, In n c -> In n c) by auto. assert (N := cw_names _ _ W). revert Hi N. generalize c at 1 3 4. intros l.
  induction l as [|n l IH]; intros Hi N; [constructor|]. simpl in N. apply NoDup_cons in N as [N1 N2]. simpl. rewrite map_app. apply NoDup_app. split; [|split].
  - assert (Wn := cw_ns _ _ W n (Hi n (or_introl eq_refl))).
    rewrite (map_ext_in key_of (fun q => pr (n_name n) (local_id q))); [|intros q Iq; apply (scope_key d n q Wn Iq)].
    rewrite <- (map_map local_id). apply nodup_pair. exact (nw_keys _ _ Wn).
  - intros k Hk Hk'. apply elem_of_list_In in Hk, Hk'. apply N1, elem_of_list_In.
    apply (key_scope d c n) in Hk; [|exact W|apply Hi; now left].
    apply in_map_iff in Hk' as (q & Eq & Iq). apply in_flat_map in Iq as (m & Im & Iq).
    assert (Z : fst k = n_name m). { apply (key_scope d c m); [exact W|apply Hi; now right|]. rewrite <- Eq. now apply in_map. }
    rewrite <- Hk, Z. now apply in_map.
  - apply IH; [|exact N2]. intros m Im. apply Hi. now right.
Qed.
Lemma cat_objs_lookup d c k x : cat_wf d c -> cat_objs d c !! k = Some x <-> exists n, In n c /\ In (k, x) (ns_objs d n).
Proof.
  intros W. unfold cat_objs. rewrite <- elem_of_list_to_map.
  - rewrite elem_of_list_In, in_flat_map. reflexivity.
  - change (base.NoDup (map fst (flat_map (ns_objs d) c))). rewrite cat_objs_keys. now apply (nodup_keys d).
Qed.
Lemma cat_objs_none d c k : cat_wf d c -> cat_objs d c !! k = None <-> ~ In k (cat_keys c).
Proof.
  intros W. unfold cat_objs. rewrite <- cat_objs_keys with (d := d). split.
  - intros H Hk. apply not_elem_of_list_to_map in H. apply H. now apply elem_of_list_In.
  - intros H. apply not_elem_of_list_to_map. rewrite elem_of_list_In. exact H.
Qed.
(** the database that contains a catalog and nothing else *)
Lemma exact_has d c : cat_wf d c -> has_cat d c (Db (cat_schemas c) (cat_objs d c)).
Proof.
  intros W. split.
  - intros n I. destruct (String.eqb_spec (n_name n) "") as [E|E]; [now left|right]. apply in_cat_schemas. split; [exact E|now apply in_map].
  - intros n k x I Hx. apply cat_objs_lookup; eauto.
Qed.

(** What is left of the source after mutation with all kinds of drops allowed. *)
Definition drops_all (o : options) : Prop :=
  allow_drop_enum o = true /\ allow_drop_struct o = true /\ allow_drop_table o = true /\ allow_drop_namespace o = true.
Lemma outcome_rest d o s t D D' k : cat_wf d s -> drops_all o -> outcome d o s t D D' -> In k (cat_keys s) -> ~ In k (cat_keys t) -> cat_wf d t -> db_objs D' !! k = None.
Proof.
  intros Ws (O1 & O2 & O3 & O4) O Hs Nt Wt. apply in_cat_keys in Hs as (a & Ia & Hk). assert (Ek := key_scope d s a k Ws Ia Hk).
  destruct (in_dec string_dec (n_name a) (map n_name t)) as [It|It].
  - apply in_map_iff in It as (b & Eb & Ib). assert (Hab : common_ns s t a b) by (split; [exact Ia|split; [exact Ib|now rewrite Eb]]).
    assert (Nk : not_in_ns b (snd k)).
    { intros Hin. apply in_map_iff in Hin as (q & Eq & Iq). apply Nt. apply in_cat_keys. exists b. split; [exact Ib|].
      destruct k as [k1 k2]. cbn [fst snd] in *. subst k1 k2. rewrite <- Eb, <- (scope_key d b q (cw_ns _ _ Wt b Ib) Iq). now apply in_map. }
    assert (Wa := cw_ns _ _ Ws a Ia).
    apply in_keys in Hk as [Hk|[Hk|Hk]]; apply in_map_iff in Hk as (x & <- & Ix).
    + assert (Z := oc_enum _ _ _ _ _ _ O a b x Hab Ix). rewrite O1 in Z. apply Z. rewrite (kn_e d a Wa x Ix) in Nk. exact Nk.
    + assert (Z := oc_struct _ _ _ _ _ _ O a b x Hab Ix). rewrite O2 in Z. apply Z. rewrite (kn_s d a Wa x Ix) in Nk. exact Nk.
    + assert (Z := oc_table _ _ _ _ _ _ O a b x Hab Ix). rewrite O3 in Z. apply Z. rewrite (kn_t d a Wa x Ix) in Nk. exact Nk.
  - apply (oc_ns_gone _ _ _ _ _ _ O O4 a); [split; auto|exact Hk].
Qed.

Theorem mutation_exact d o s t s' t' l :
  mutate_catalog d o s t = Ok (s', t', l) -> drops_all o -> cat_wf d s -> cat_wf d t -> cat_compat d s t ->
  (forall e, replaced s t e -> ~ In (parked e) (cat_keys s)) ->
  exec_all (engine_of d) l (Db (cat_schemas s) (cat_objs d s)) = Some (Db (cat_schemas t) (cat_objs d t)).
Proof.
  intros H Ho Ws Wt C HP. set (D := Db (cat_schemas s) (cat_objs d s)).
  assert (None_s : forall k, ~ In k (cat_keys s) -> db_objs D !! k = None) by (intros k Hk; now apply (cat_objs_none d)).
  destruct (mutation_outcome d o s t s' t' l D H Ws Wt C (exact_has d s Ws)) as (D' & X & O).
  - constructor.
    + intros k _ Hk. now apply None_s.
    + intros n It Is. destruct (String.eqb_spec (n_name n) "") as [E|E]; [now left|right]. simpl. rewrite in_cat_schemas. tauto.
    + intros e He. apply None_s. now apply HP.
  - intros _ _ n k _ _ _ _ Hk. now apply None_s.
  - rewrite X. f_equal. destruct D' as [Sc' O']. f_equal.
    + apply set_eq. intros x. assert (Z := oc_schemas _ _ _ _ _ _ O x). simpl in Z. destruct Ho as (_ & _ & _ & Ho). rewrite Ho in Z.
      assert (TT : true = true) by reflexivity. destruct (decide (x ∈ cat_schemas s)); tauto.
    + apply map_eq. intros k. destruct (in_dec (fun a b => decide (a = b)) k (cat_keys t)) as [Kt|Kt].
      * apply in_cat_keys in Kt as (n & It & Hk). rewrite <- (ns_objs_keys d) in Hk. apply in_map_iff in Hk as ([k' x] & Ek & Hx). cbn [fst] in Ek. subst k'.
        assert (Y := proj2 (oc_target _ _ _ _ _ _ O) n k x It Hx). simpl in Y. etransitivity; [exact Y|]. symmetry. apply cat_objs_lookup; eauto.
      * transitivity (@None dbobj); [|symmetry; now apply (cat_objs_none d)].
        destruct (in_dec (fun a b => decide (a = b)) k (cat_keys s)) as [Ks|Ks]; [exact (outcome_rest d o s t D _ k Ws Ho O Ks Kt Wt)|].
        assert (Dn : allow_drop_namespace o = true) by apply Ho.
        assert (G : (exists n, removed_ns s t n /\ n_name n <> ""%string /\ fst k = n_name n) \/ ~ (exists n, removed_ns s t n /\ n_name n <> ""%string /\ fst k = n_name n)).
        { destruct (String.eqb_spec (fst k) "") as [E0|E0]; [right; intros (n & _ & N & E); congruence|].
          destruct (in_dec string_dec (fst k) (map n_name s)) as [I1|I1]; [|right; intros (n & [N1 _] & _ & E); apply I1; rewrite E; now apply in_map].
          destruct (in_dec string_dec (fst k) (map n_name t)) as [I2|I2]; [right; intros (n & [_ N1] & _ & E); apply N1; now rewrite <- E|].
          left. apply in_map_iff in I1 as (n & E & I1). exists n. split; [split; [exact I1|now rewrite E]|]. split; [now rewrite E|now symmetry]. }
        destruct G as [(n & Hn & Nn & En)|G]; [exact (oc_schema_gone _ _ _ _ _ _ O Dn n k Hn Nn En)|].
        assert (V : forall e, replaced s t e -> k = parked e -> O' !! k = None).
        { intros e He ->. assert (Z := oc_parked _ _ _ _ _ _ O e He). rewrite (proj1 Ho) in Z. exact Z. }
        assert (U : (forall e, replaced s t e -> k <> parked e) -> O' !! k = None).
        { intros P. apply (kp_none _ _ _ _ (oc_frame _ _ _ _ _ _ O k Ks Kt P (fun _ n Hn Nn E => G (ex_intro _ n (conj Hn (conj Nn E)))))). now apply None_s. }
        destruct (O' !! k) as [y|] eqn:Ey; [exfalso|reflexivity].
        assert (Q : forall e, replaced s t e -> k <> parked e) by (intros e He E; discriminate (V e He E)). discriminate (U Q).
Qed.
Print Assumptions mutation_exact.
