(** Proofs for C62, part 1: mutating a catalog into one that it is part of. *)
From Verif Require Import PyStr QuoteModel Types Objects SqlAst Ddl Mutate Convert DbSpec CatSpec CatProofs2 CatProofs3 CatProofs5 MutSpec TabProofs1 RunProofs5 GrowSpec.
From Coq Require Import List.
From stdpp Require Import gmap strings.
Open Scope string_scope.

Section Grow.
Context (d : Ddl.dialect) (s t : catalog).
Hypothesis WS : cat_wf d s.
Hypothesis WT : cat_wf d t.
Hypothesis P : part_of s t.

Lemma same_ns a b : In a s -> In b t -> n_name a = n_name b -> List.incl (n_enums a) (n_enums b) /\ List.incl (n_structs a) (n_structs b) /\ List.incl (n_tables a) (n_tables b).
Proof.
  intros Ia Ib E. destruct (P a Ia) as (b' & Ib' & E' & I). assert (b' = b); [|now subst].
  apply (nodup_map_inj n_name t b' b (cw_names _ _ WT) Ib' Ib). congruence.
Qed.
(** the names of a namespace are distinct *)
Lemma kinds_apart n : In n t -> 
  (forall e x, In e (n_enums n) -> In x (n_structs n) -> e_key e <> s_key x) /\
  (forall e x, In e (n_enums n) -> In x (n_tables n) -> e_key e <> t_key x) /\
  (forall e x, In e (n_structs n) -> In x (n_tables n) -> s_key e <> t_key x).
Proof.
  intros I. pose proof (nw_keys _ _ (cw_ns _ _ WT n I)) as N. unfold ns_names in N. rewrite !map_app, !map_map in N.
  apply NoDup_app in N as (_ & N1 & N). apply NoDup_app in N as (_ & N2 & _). split; [|split]; intros e x Ie Ix K; unfold e_key, s_key, t_key in K.
  - apply (N1 (local_id (e_name e))); [apply elem_of_list_In; now apply (in_map (fun y => local_id (e_name y)))|]. apply elem_of_app. left. rewrite K. apply elem_of_list_In. now apply (in_map (fun y => local_id (s_name y))).
  - apply (N1 (local_id (e_name e))); [apply elem_of_list_In; now apply (in_map (fun y => local_id (e_name y)))|]. apply elem_of_app. right. rewrite K. apply elem_of_list_In. now apply (in_map (fun y => local_id (t_name y))).
  - apply (N2 (local_id (s_name e))); [apply elem_of_list_In; now apply (in_map (fun y => local_id (s_name y)))|]. rewrite K. apply elem_of_list_In. now apply (in_map (fun y => local_id (t_name y))).
Qed.
Lemma tables_one n x y : In n t -> In x (n_tables n) -> In y (n_tables n) -> t_key x = t_key y -> x = y.
Proof.
  intros I Ix Iy K. pose proof (nw_keys _ _ (cw_ns _ _ WT n I)) as N. unfold ns_names in N. rewrite !map_app, !map_map in N.
  apply NoDup_app in N as (_ & _ & N). apply NoDup_app in N as (_ & _ & N). exact (nodup_map_inj _ _ _ _ N Ix Iy K).
Qed.
Lemma none_replaced e : ~ replaced s t e.
Proof. intros (a & b & x & Ia & Ib & E & Ie & Ix & _ & N). destruct (same_ns a b Ia Ib E) as (I & _). apply N. apply in_map. now apply I. Qed.
Lemma none_removed n : ~ removed_ns s t n.
Proof. intros [I N]. destruct (P n I) as (b & Ib & E & _). apply N. rewrite E. now apply in_map. Qed.
Lemma tab_compat_refl x : tab_wf d x -> tab_compat d x x.
Proof.
  intros W. assert (U : forall a b, In a (t_columns x) -> In b (t_columns x) -> c_name a = c_name b -> a = b) by (intros a b Ia Ib; apply (nodup_map_inj c_name _ _ _ (tw_cols _ _ W) Ia Ib)).
  constructor.
  - reflexivity.
  - intros a b Ia Ib E. rewrite (U a b Ia Ib E). split; [intros X Y; congruence|intros _ _; reflexivity].
  - intros a b Ia Ib E [N _]. destruct N. now rewrite (U a b Ia Ib E).
  - intros _ a k Ia N. destruct N. now apply in_map.
  - intros _. split; [reflexivity|]. intros a b Ia Ib E. rewrite (U a b Ia Ib E). split; [reflexivity|]. unfold default_as_is. auto.
Qed.
Lemma part_compat : cat_compat d s t.
Proof.
  constructor.
  - intros a b Ia Ib E. destruct (same_ns a b Ia Ib E) as (I1 & I2 & I3). destruct (kinds_apart b Ib) as (K1 & K2 & K3). constructor.
    + intros x y Ix Iy K. rewrite <- (tables_one b x y Ib (I3 x Ix) Iy K). apply tab_compat_refl. apply (nw_table _ _ (cw_ns _ _ WT b Ib)). now apply I3.
    + intros e x Ie Ix K. exfalso. exact (K2 e x (I1 e Ie) Ix K).
    + intros e x Ie Ix. apply K1; auto.
    + intros x Ix. split; intros J; apply in_map_iff in J as (y & K & Iy); [exact (K1 y x Iy (I2 x Ix) K)|exact (K3 x y (I2 x Ix) Iy (eq_sym K))].
    + intros x Ix. split; intros J; apply in_map_iff in J as (y & K & Iy); [exact (K2 y x Iy (I3 x Ix) K)|exact (K3 y x Iy (I3 x Ix) K)].
  - intros e n ty q R. destruct (none_replaced e R).
  - intros e R. destruct (none_replaced e R).
Qed.
Lemma part_keys k : In k (cat_keys s) -> In k (cat_keys t).
Proof.
  unfold cat_keys. intros I. apply in_map_iff in I as (q & <- & I). apply in_map. apply in_flat_map in I as (a & Ia & I). destruct (P a Ia) as (b & Ib & _ & I1 & I2 & I3).
  apply in_flat_map. exists b. split; [exact Ib|]. unfold ns_names in *. rewrite !in_app_iff in *. destruct I as [I|[I|I]]; apply in_map_iff in I as (x & <- & I).
  - left. apply in_map. auto.
  - right. left. apply in_map. auto.
  - right. right. apply in_map. auto.
Qed.
Lemma part_schemas x : x ∈ cat_schemas s -> x ∈ cat_schemas t.
Proof. rewrite !in_cat_schemas. intros [N I]. split; [exact N|]. apply in_map_iff in I as (a & <- & I). destruct (P a I) as (b & Ib & -> & _). now apply in_map. Qed.

Theorem grow o s' t' l D : mutate_catalog d o s t = Ok (s', t', l) -> has_cat d s D -> room s t D ->
  exec_all (engine_of d) l D = Some (Db (db_schemas D ∪ cat_schemas t) (cat_objs d t ∪ db_objs D)).
Proof.
  intros M H [R1 R2]. destruct (mutation_outcome d o s t s' t' l D M WS WT part_compat H) as (D' & X & O).
  - constructor; auto. intros e R. destruct (none_replaced e R).
  - intros _ _ n k I N. destruct (none_removed n). split; auto.
  - rewrite X. f_equal. destruct D' as [Sc' O']. f_equal.
    + apply set_eq. intros x. assert (Z := oc_schemas _ _ _ _ _ _ O x). simpl in Z. rewrite elem_of_union, Z. split.
      * intros [A|[A _]]; auto.
      * intros [A|A]; [|auto]. destruct (decide (x ∈ cat_schemas s)) as [B|B]; [left; now apply part_schemas|]. right. split; [exact A|]. tauto.
    + apply map_eq. intros k. destruct (in_dec (fun a b => decide (a = b)) k (cat_keys t)) as [Kt|Kt].
      * apply in_cat_keys in Kt as (n & It & Hk). rewrite <- (ns_objs_keys d) in Hk. apply in_map_iff in Hk as ([k' x] & Ek & Hx). cbn [fst] in Ek. subst k'.
        assert (Y := proj2 (oc_target _ _ _ _ _ _ O) n k x It Hx). simpl in Y. etransitivity; [exact Y|]. symmetry. apply lookup_union_Some_l. apply cat_objs_lookup; eauto.
      * rewrite lookup_union_r by now apply (cat_objs_none d).
        assert (K : kept s t (db_objs D !! k) (O' !! k)).
        { refine (oc_frame _ _ _ _ _ _ O k _ Kt _ _); [intros I; now apply Kt, part_keys|intros e R; destruct (none_replaced e R)|]. intros _ n R. destruct (none_removed n R). }
        destruct (db_objs D !! k) as [x|] eqn:E; [|exact (kp_none _ _ _ _ K eq_refl)].
        apply (kp_same _ _ _ _ K x eq_refl). intros e R. destruct (none_replaced e R).
Qed.

(** nothing that exists is changed *)
Lemma grow_keeps D k x : has_cat d s D -> room s t D -> db_objs D !! k = Some x -> (cat_objs d t ∪ db_objs D) !! k = Some x.
Proof.
  intros [_ H] [R _] Hx. destruct (in_dec (fun a b => decide (a = b)) k (cat_keys t)) as [Kt|Kt].
  - destruct (in_dec (fun a b => decide (a = b)) k (cat_keys s)) as [Ks|Ks]; [|rewrite (R k Kt Ks) in Hx; discriminate].
    apply in_cat_keys in Ks as (n & It & Hk). rewrite <- (ns_objs_keys d) in Hk. apply in_map_iff in Hk as ([k' y] & Ek & Hy). cbn [fst] in Ek. subst k'.
    pose proof (H n k y It Hy) as E. rewrite Hx in E. injection E as <-. apply lookup_union_Some_l, cat_objs_lookup; [exact WT|].
    destruct (P n It) as (b & Ib & _ & I1 & I2 & I3). exists b. split; [exact Ib|]. unfold ns_objs in *. rewrite !in_app_iff in *.
    destruct Hy as [Hy|[Hy|Hy]]; apply in_map_iff in Hy as (z & E & Iz); [left|right; left|right; right]; apply in_map_iff; exists z; auto.
  - rewrite lookup_union_r by now apply (cat_objs_none d). exact Hx.
Qed.
End Grow.
