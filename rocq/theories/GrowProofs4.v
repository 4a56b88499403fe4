(** Proofs for C62, part 4: what is generated only adds, can be read on every engine, and is generated whenever the new
    catalog can be created. *)
From Verif Require Import PyStr QuoteModel ObjectDict ObjectDictProofs Types Objects SqlAst Ddl Mutate Convert DbSpec CatSpec SortSpec SortProofs EqProofs KeySpec NoopProofs MergeProofs CatTextSpec
  CatProofs2 CatProofs3 CatProofs5 MutSpec TabProofs1 RunProofs2 TabProofs2 RunProofs5 TextProofs1 TextProofs2 TextProofs8 GrowSpec GrowProofs1.
From Coq Require Import List Permutation Relations.
From stdpp Require Import gmap strings.
Open Scope string_scope.

Section Grow.
Context (d : Ddl.dialect) (s t : catalog).
Hypothesis WS : cat_wf d s.
Hypothesis WT : cat_wf d t.
Hypothesis P : part_of s t.

Lemma ns_keyed_wf c n : cat_wf d c -> In n c -> ns_keyed n.
Proof.
  intros W I. pose proof (cw_ns _ _ W n I) as [_ K _ M T]. unfold ns_names in K. rewrite !map_app, !map_map in K.
  apply NoDup_app in K as (K1 & _ & K). apply NoDup_app in K as (K2 & _ & K3).
  constructor; try (apply NoDup_ListNoDup; assumption).
  - intros x Ix. apply NoDup_ListNoDup. now apply M.
  - intros x Ix. pose proof (T x Ix) as Tx. constructor; apply NoDup_ListNoDup; [exact (tw_cols _ _ Tx)|exact (tw_cons _ _ Tx)].
Qed.
Lemma cat_keyed_wf c : cat_wf d c -> cat_keyed c.
Proof. intros W. constructor; [apply NoDup_ListNoDup; exact (cw_names _ _ W)|intros n; now apply ns_keyed_wf]. Qed.
Lemma table_eqb_refl x : table_keyed x -> table_eqb x x = true.
Proof. intros K. apply table_same; auto. unfold MergeSpec.same_table. repeat split; auto. Qed.
Lemma struct_eqb_refl x : List.NoDup (map m_name (s_members x)) -> struct_eqb x x = true.
Proof. intros K. apply struct_same; auto. unfold MergeSpec.same_struct. repeat split; auto. Qed.

(** common objects are the same *)
Lemma enums_common a b p : In a s -> In b t -> n_name a = n_name b -> In p (od_intersection e_key (n_enums a) (n_enums b)) -> fst p = snd p /\ In (snd p) (n_enums b).
Proof.
  intros Ia Ib E I. apply inter_in in I as (I1 & I2 & K). destruct (same_ns d s t WT P a b Ia Ib E) as (J & _). split; [|exact I2].
  pose proof (nk_enums _ (ns_keyed_wf t b WT Ib)) as N. apply NoDup_ListNoDup in N. exact (nodup_map_inj _ _ _ _ N (J _ I1) I2 K).
Qed.
Lemma structs_common a b p : In a s -> In b t -> n_name a = n_name b -> In p (od_intersection s_key (n_structs a) (n_structs b)) -> fst p = snd p /\ In (snd p) (n_structs b).
Proof.
  intros Ia Ib E I. apply inter_in in I as (I1 & I2 & K). destruct (same_ns d s t WT P a b Ia Ib E) as (_ & J & _). split; [|exact I2].
  pose proof (nk_structs _ (ns_keyed_wf t b WT Ib)) as N. apply NoDup_ListNoDup in N. exact (nodup_map_inj _ _ _ _ N (J _ I1) I2 K).
Qed.
Lemma tables_common a b p : In a s -> In b t -> n_name a = n_name b -> In p (od_intersection t_key (n_tables a) (n_tables b)) -> fst p = snd p /\ In (snd p) (n_tables b).
Proof.
  intros Ia Ib E I. apply inter_in in I as (I1 & I2 & K). destruct (same_ns d s t WT P a b Ia Ib E) as (_ & _ & J). split; [|exact I2].
  pose proof (nk_tables _ (ns_keyed_wf t b WT Ib)) as N. apply NoDup_ListNoDup in N. exact (nodup_map_inj _ _ _ _ N (J _ I1) I2 K).
Qed.
Lemma no_drop {A} (key : A -> string) l l' : incl l l' -> od_difference key l l' = [].
Proof.
  intros I. destruct (od_difference key l l') as [|x r] eqn:E; [reflexivity|]. exfalso. assert (H : In x (od_difference key l l')) by (rewrite E; now left).
  apply difference_in in H as [H1 H2]. apply H2. apply in_map. now apply I.
Qed.

(** a new object has a new key *)
Lemma key_new b q : In b t -> In q (ns_names b) -> (forall a, In a s -> n_name a = n_name b -> ~ In (local_id q) (map local_id (ns_names a))) -> ~ In (key_of q) (cat_keys s).
Proof.
  intros Ib Iq H J. apply in_cat_keys in J as (a & Ia & J). pose proof (key_scope d s a (key_of q) WS Ia J) as E.
  rewrite (nw_scope _ _ (cw_ns _ _ WT b Ib) q Iq) in E. apply in_map_iff in J as (q' & K & J). apply (H a Ia (eq_sym E)). apply in_map_iff. exists q'. split; [|exact J].
  now injection K as _ ->.
Qed.
Lemma ns_key_new b q : In b t -> In q (ns_names b) -> ~ In (n_name b) (map n_name s) -> ~ In (key_of q) (cat_keys s).
Proof. intros Ib Iq N. apply (key_new b q Ib Iq). intros a Ia E. destruct N. rewrite <- E. now apply in_map. Qed.
Lemma enum_in b x : In x (n_enums b) -> In (e_name x) (ns_names b).
Proof. intros I. unfold ns_names. rewrite !in_app_iff. left. now apply in_map. Qed.
Lemma struct_in b x : In x (n_structs b) -> In (s_name x) (ns_names b).
Proof. intros I. unfold ns_names. rewrite !in_app_iff. right. left. now apply in_map. Qed.
Lemma table_in b x : In x (n_tables b) -> In (t_name x) (ns_names b).
Proof. intros I. unfold ns_names. rewrite !in_app_iff. right. right. now apply in_map. Qed.
Lemma names_cases a k : In k (map local_id (ns_names a)) -> (exists x, In x (n_enums a) /\ e_key x = k) \/ (exists x, In x (n_structs a) /\ s_key x = k) \/ (exists x, In x (n_tables a) /\ t_key x = k).
Proof.
  intros I. apply in_map_iff in I as (q & <- & I). unfold ns_names in I. rewrite !in_app_iff in I. destruct I as [I|[I|I]]; apply in_map_iff in I as (x & <- & I); eauto.
Qed.
Lemma same_name a a' : In a s -> In a' s -> n_name a = n_name a' -> a = a'.
Proof. intros. eapply (nodup_map_inj n_name); eauto. exact (cw_names _ _ WS). Qed.
Lemma enum_new a b x : In a s -> In b t -> n_name a = n_name b -> In x (od_difference e_key (n_enums b) (n_enums a)) -> In x (n_enums b) /\ ~ In (key_of (e_name x)) (cat_keys s).
Proof.
  intros Ia Ib E I. apply difference_in in I as [I N]. split; [exact I|]. apply (key_new b _ Ib (enum_in b x I)). intros a' Ia' E' J.
  assert (a' = a) by (apply same_name; congruence). subst a'. destruct (same_ns d s t WT P a b Ia Ib E) as (J1 & J2 & J3). destruct (kinds_apart d t WT b Ib) as (K1 & K2 & K3).
  destruct (names_cases a _ J) as [(y & Iy & Ky)|[(y & Iy & Ky)|(y & Iy & Ky)]].
  - apply N. unfold od_keys. apply in_map_iff. eauto.
  - exact (K1 x y I (J2 _ Iy) (eq_sym Ky)).
  - exact (K2 x y I (J3 _ Iy) (eq_sym Ky)).
Qed.
Lemma struct_new a b x : In a s -> In b t -> n_name a = n_name b -> In x (od_difference s_key (n_structs b) (n_structs a)) -> In x (n_structs b) /\ ~ In (key_of (s_name x)) (cat_keys s).
Proof.
  intros Ia Ib E I. apply difference_in in I as [I N]. split; [exact I|]. apply (key_new b _ Ib (struct_in b x I)). intros a' Ia' E' J.
  assert (a' = a) by (apply same_name; congruence). subst a'. destruct (same_ns d s t WT P a b Ia Ib E) as (J1 & J2 & J3). destruct (kinds_apart d t WT b Ib) as (K1 & K2 & K3).
  destruct (names_cases a _ J) as [(y & Iy & Ky)|[(y & Iy & Ky)|(y & Iy & Ky)]].
  - exact (K1 y x (J1 _ Iy) I Ky).
  - apply N. unfold od_keys. apply in_map_iff. eauto.
  - exact (K3 x y I (J3 _ Iy) (eq_sym Ky)).
Qed.
Lemma table_new a b x : In a s -> In b t -> n_name a = n_name b -> In x (od_difference t_key (n_tables b) (n_tables a)) -> In x (n_tables b) /\ ~ In (key_of (t_name x)) (cat_keys s).
Proof.
  intros Ia Ib E I. apply difference_in in I as [I N]. split; [exact I|]. apply (key_new b _ Ib (table_in b x I)). intros a' Ia' E' J.
  assert (a' = a) by (apply same_name; congruence). subst a'. destruct (same_ns d s t WT P a b Ia Ib E) as (J1 & J2 & J3). destruct (kinds_apart d t WT b Ib) as (K1 & K2 & K3).
  destruct (names_cases a _ J) as [(y & Iy & Ky)|[(y & Iy & Ky)|(y & Iy & Ky)]].
  - exact (K2 y x (J1 _ Iy) I Ky).
  - exact (K3 y x (J2 _ Iy) I Ky).
  - apply N. unfold od_keys. apply in_map_iff. eauto.
Qed.

(** the statements for a new object only add *)
Definition fine (st : stmt) : Prop := only_adds s st /\ engine_has d st.
Lemma struct_fine x r st : ~ In (key_of (s_name x)) (cat_keys s) -> create_struct d x = Ok r -> In st r -> fine st.
Proof.
  unfold fine. intros N E J. unfold create_struct in E. destruct (map_res _ (s_members x)); [|discriminate]. simpl in E. injection E as <-.
  destruct J as [<-|J]; [split; [exact N|now destruct d]|]. destruct d, (s_desc x); try contradiction. destruct J as [<-|[]]; split; exact N || now destruct d.
Qed.
Lemma table_fine x r st : ~ In (key_of (t_name x)) (cat_keys s) -> create_table d x = Ok r -> In st r -> fine st.
Proof.
  unfold fine. intros N E J. unfold create_table in E. destruct (map_res _ (t_columns x)); [|discriminate]. simpl in E. destruct (enum_insert x) as [ins|] eqn:E2; [|discriminate]. simpl in E. injection E as <-.
  destruct J as [<-|J]; [split; [exact N|now destruct d]|]. apply in_app_or in J as [J|J].
  - unfold create_comments in J. destruct d; try contradiction. apply in_app_or in J as [J|J].
    + destruct (t_desc x); [|destruct J]. destruct J as [<-|[]]. split; [exact N|now destruct d].
    + apply in_flat_map in J as (c & _ & J). destruct (c_desc c); [|destruct J]. destruct J as [<-|[]]. split; [exact N|now destruct d].
  - unfold enum_insert in E2. destruct (t_enum x); [|injection E2 as <-; destruct J]. destruct (get_value_columns x None); [|discriminate]. simpl in E2. destruct (map_res constant l); [|discriminate]. simpl in E2. injection E2 as <-.
    destruct J as [<-|[]]. split; [exact N|now destruct d].
Qed.
Lemma constraints_fine x st : ~ In (key_of (t_name x)) (cat_keys s) -> In st (add_constraints d x) -> fine st.
Proof.
  unfold fine. intros N J. destruct (add_constraints_stmts d x st J) as (acts & -> & A & _). split.
  - split; [exact N|]. intros a Ia. specialize (A a Ia). destruct a; try destruct A. eauto.
  - unfold add_constraints in J. destruct (table_constraints x) as [|k0 ks]; [destruct J|].
    assert (Z : forall n m l, ~ In (ARenameColumn n m) (map AAddConstraint l)) by (intros n m l I; apply in_map_iff in I as (? & ? & _); discriminate).
    destruct d; try exact Logic.I; cbn [engine_has].
    + cbn [In] in J. destruct J as [J|[]]. injection J as <-. intros n m. exact (Z n m (k0 :: ks)).
    + unfold alter_table in J. apply in_map_iff in J as (a & J & Ia). injection J as <-. split; [reflexivity|]. intros c [I|[]]. subst a. apply in_map_iff in Ia as (? & ? & _). discriminate.
Qed.

Lemma namespace_fine o a b l : In a s -> In b t -> n_name a = n_name b -> mutate_namespace d o a b = Ok l -> forall st, In st l -> fine st.
Proof.
  unfold fine. intros Ia Ib E H st J. destruct (same_ns d s t WT P a b Ia Ib E) as (I1 & I2 & I3). unfold mutate_namespace in H. destruct (negb _); [discriminate|]. cbv zeta in H.
  rewrite (no_drop e_key _ _ I1), (no_drop s_key _ _ I2), (no_drop t_key _ _ I3) in H. cbn [flat_map map] in H.
  apply bind_inv in H as (ss & E1 & H). apply bind_inv in H as (ts & E2 & H). apply bind_inv in H as (me & E3 & H). apply bind_inv in H as (ms & E4 & H). apply bind_inv in H as (mt & E5 & H).
  apply Ok_inj in H. subst l.
  apply concat_res_all_nil in E3; [|intros p y Ip Hy; destruct (enums_common a b p Ia Ib E Ip) as [Ep _]; assert (Z : mutate_enum (fst p) (snd p) = Ok []) by (rewrite Ep; apply enum_noop; now apply enum_eqb_eq); congruence].
  apply concat_res_all_nil in E4; [|intros p y Ip Hy; destruct (structs_common a b p Ia Ib E Ip) as [Ep Is]; pose proof (nk_members _ (ns_keyed_wf t b WT Ib) _ Is) as Nm; assert (Z : mutate_struct d (fst p) (snd p) = Ok []) by (rewrite Ep; apply struct_noop; [exact Nm|exact (struct_eqb_refl _ Nm)]); congruence].
  apply concat_res_all_nil in E5; [|intros p y Ip Hy; destruct (tables_common a b p Ia Ib E Ip) as [Ep It]; pose proof (nk_table _ (ns_keyed_wf t b WT Ib) _ It) as Nt; rewrite Ep in Hy; exact (table_noop d (snd p) (snd p) y Nt Nt (table_eqb_refl _ Nt) Hy)].
  subst me ms mt. cbn [app] in J.
  destruct (allow_drop_table o), (allow_drop_struct o), (allow_drop_enum o); rewrite ?app_nil_r in J; cbn [app] in J; rewrite ?app_nil_r, !in_app_iff in J;
  (destruct J as [J|[J|[J|J]]];
   [apply in_map_iff in J as (x & <- & Ix); apply (enum_new a b x Ia Ib E) in Ix as [_ N]; split; [exact N|now destruct d]
   |destruct (TabProofs2.concat_res_in _ _ _ _ E1 J) as (x & r & Ix & Hr & Ir); apply (struct_new a b x Ia Ib E) in Ix as [_ N]; eapply struct_fine; eauto
   |destruct (TabProofs2.concat_res_in _ _ _ _ E2 J) as (x & r & Ix & Hr & Ir); apply (table_new a b x Ia Ib E) in Ix as [_ N]; eapply table_fine; eauto
   |apply in_flat_map in J as (x & Ix & J); apply (table_new a b x Ia Ib E) in Ix as [_ N]; eapply constraints_fine; eauto]).
Qed.

Lemma sort_perm c c' : cat_wf d c -> cat_sort c = Ok c' -> Permutation c c'.
Proof. intros W H. pose proof (cat_sort_correct c (proj1 (NoDup_ListNoDup _) (cw_names _ _ W))) as S. rewrite H in S. exact (proj1 (proj1 S)). Qed.
Theorem mutation_fine o s' t' l : mutate_catalog d o s t = Ok (s', t', l) -> forall st, In st l -> fine st.
Proof.
  unfold fine. intros H st J. unfold mutate_catalog in H. apply bind_inv in H as (s1 & Hs & H). apply bind_inv in H as (t1 & Ht & H). apply bind_inv in H as (l1 & M & H). apply Ok_inj in H. injection H as -> -> ->.
  apply (sort_perm _ _ WS) in Hs. apply (sort_perm _ _ WT) in Ht.
  assert (Is : forall n, In n s' <-> In n s) by (intros n; split; apply Permutation_in; [now symmetry|assumption]).
  assert (It : forall n, In n t' <-> In n t) by (intros n; split; apply Permutation_in; [now symmetry|assumption]).
  assert (Is2 : forall k, In k (map n_name s') -> In k (map n_name s)) by (intros k I; apply in_map_iff in I as (x & <- & I); apply in_map; now apply Is).
  assert (Is3 : forall k, In k (map n_name s) -> In k (map n_name s')) by (intros k I; apply in_map_iff in I as (x & <- & I); apply in_map; now apply Is).
  assert (ND : od_difference n_name s' t' = []).
  { destruct (od_difference n_name s' t') as [|x r] eqn:E; [reflexivity|]. exfalso. assert (K : In x (od_difference n_name s' t')) by (rewrite E; now left). apply difference_in in K as [K1 K2].
    apply Is in K1. destruct (P x K1) as (b & Ib & Eb & _). apply K2. rewrite Eb. apply in_map. now apply It. }
  unfold mutate_sorted in M. cbv zeta in M. rewrite ND in M. apply bind_inv in M as (cr & E4 & M). apply bind_inv in M as (mu & E5 & M). apply Ok_inj in M. subst l. cbn [flat_map app] in J.
  assert (Nw : forall n, In n (od_difference n_name t' s') -> In n t /\ ~ In (n_name n) (map n_name s)) by (intros n I; apply difference_in in I as [I N]; split; [now apply It|intros K; apply N, Is3, K]).
  assert (J' : In st (flat_map (create_schema d) (od_difference n_name t' s')) \/ In st cr \/ In st (flat_map (ns_add_constraints d) (od_difference n_name t' s')) \/ In st mu).
  { destruct (allow_drop_namespace o); cbn [app] in J; rewrite ?app_nil_r, !in_app_iff in J; tauto. } clear J. destruct J' as [J|[J|[J|J]]].
  - apply in_flat_map in J as (n & I & J). apply Nw in I as [I N]. unfold create_schema in J. destruct (n_name n) eqn:En; [destruct J|]. destruct J as [<-|[]]. split; [exact N|now destruct d].
  - destruct (TabProofs2.concat_res_in _ _ _ _ E4 J) as (n & r & I & Hr & Ir). apply Nw in I as [I N]. unfold create_objects in Hr. apply bind_inv in Hr as (ss & Ess & Hr). apply bind_inv in Hr as (ts & Ets & Hr). apply Ok_inj in Hr. subst r.
    rewrite !in_app_iff in Ir. destruct Ir as [Ir|[Ir|Ir]].
    + apply in_map_iff in Ir as (x & <- & Ix). split; [exact (ns_key_new n _ I (enum_in n x Ix) N)|now destruct d].
    + destruct (TabProofs2.concat_res_in _ _ _ _ Ess Ir) as (x & rx & Ix & Hx & Irx). exact (struct_fine x rx st (ns_key_new n _ I (struct_in n x Ix) N) Hx Irx).
    + destruct (TabProofs2.concat_res_in _ _ _ _ Ets Ir) as (x & rx & Ix & Hx & Irx). exact (table_fine x rx st (ns_key_new n _ I (table_in n x Ix) N) Hx Irx).
  - apply in_flat_map in J as (n & I & J). apply Nw in I as [I N]. apply in_flat_map in J as (x & Ix & J). exact (constraints_fine x st (ns_key_new n _ I (table_in n x Ix) N) J).
  - destruct (TabProofs2.concat_res_in _ _ _ _ E5 J) as (p & r & Ip & Hr & Ir). apply inter_in in Ip as (I1 & I2 & K). apply Is in I1. apply It in I2. exact (namespace_fine o (fst p) (snd p) r I1 I2 K Hr st Ir).
Qed.

(** ** The statements are generated *)
Lemma map_res_some {A B} (f : A -> res B) l : (forall x, In x l -> exists y, f x = Ok y) -> exists r, map_res f l = Ok r.
Proof.
  induction l as [|x l IH]; intros H; [eexists; reflexivity|]. cbn [map_res]. destruct (H x (or_introl eq_refl)) as [y ->]. destruct IH as [r ->]; [intros; apply H; now right|]. eexists. reflexivity.
Qed.
Lemma concat_res_some {A B} (f : A -> res (list B)) l : (forall x, In x l -> exists y, f x = Ok y) -> exists r, concat_res f l = Ok r.
Proof. intros H. unfold concat_res. destruct (map_res_some f l H) as [r ->]. eexists. reflexivity. Qed.
Lemma uses_part a b q : In a s -> In b t -> n_name a = n_name b -> SortSpec.uses a q -> SortSpec.uses b q.
Proof.
  intros Ia Ib E. destruct (same_ns d s t WT P a b Ia Ib E) as (_ & J2 & J3). intros [x m Ix Im U|x c Ix Ic U|x k cs rc Ix Ik|x k cs refs rc Ix Ik Ir].
  - eapply SortSpec.uses_member; eauto.
  - eapply SortSpec.uses_column; eauto.
  - eapply SortSpec.uses_foreign; eauto.
  - eapply SortSpec.uses_discr; eauto.
Qed.
Lemma depends_part a b : depends s a b -> depends t a b.
Proof.
  intros (N & x & y & q & Ix & Iy & <- & <- & U & Sc). split; [exact N|]. destruct (P x Ix) as (x' & Ix' & Ex & _). destruct (P y Iy) as (y' & Iy' & Ey & _).
  exists x', y', q. repeat split; auto. now apply (uses_part x x').
Qed.
Lemma circular_part : circular s -> circular t.
Proof. intros (n & C). exists n. revert C. apply clos_iff. exact depends_part. Qed.
Lemma sort_ok c : cat_wf d c -> ~ circular c -> exists c', cat_sort c = Ok c'.
Proof. intros W N. pose proof (cat_sort_correct c (proj1 (NoDup_ListNoDup _) (cw_names _ _ W))) as S. destruct (cat_sort c); [eauto|]. destruct S as [_ S]. now destruct N. Qed.
Theorem grow_succeeds o t1 lc : cat_create d t = Ok (t1, lc) -> exists s' t' l, mutate_catalog d o s t = Ok (s', t', l).
Proof.
  intros H. unfold cat_create in H. apply bind_inv in H as (t2 & Ht & H). apply bind_inv in H as (os & Ho & _).
  pose proof (cat_sort_correct t (proj1 (NoDup_ListNoDup _) (cw_names _ _ WT))) as S. rewrite Ht in S. destruct S as [[Pt _] NC].
  assert (Ns : ~ circular s) by (intros C; exact (NC (circular_part C))). destruct (sort_ok s WS Ns) as [s' Hs]. pose proof (sort_perm _ _ WS Hs) as Ps.
  assert (Is : forall n, In n s' <-> In n s) by (intros n; split; apply Permutation_in; [now symmetry|assumption]).
  assert (It : forall n, In n t2 <-> In n t) by (intros n; split; apply Permutation_in; [now symmetry|assumption]).
  apply concat_res_ok in Ho as [Ho _].
  assert (Co : forall n, In n t -> (forall x, In x (n_structs n) -> exists r, create_struct d x = Ok r) /\ (forall x, In x (n_tables n) -> exists r, create_table d x = Ok r)).
  { intros n I. apply It in I. destruct (Ho n I) as [r Hr]. unfold create_objects in Hr. apply bind_inv in Hr as (ss & Ess & Hr). apply bind_inv in Hr as (ts & Ets & _).
    apply concat_res_ok in Ess as [Ess _]. apply concat_res_ok in Ets as [Ets _]. split; assumption. }
  unfold mutate_catalog. rewrite Hs, Ht. cbn [bind]. unfold mutate_sorted. cbv zeta.
  destruct (concat_res_some (create_objects d) (od_difference n_name t2 s')) as [cr Hcr].
  { intros n I. apply difference_in in I as [I _]. now apply Ho. }
  rewrite Hcr. cbn [bind].
  destruct (concat_res_some (fun p => mutate_namespace d o (fst p) (snd p)) (od_intersection n_name s' t2)) as [mu Hmu].
  { intros p Ip. apply inter_in in Ip as (Ia & Ib & E). apply Is in Ia. apply It in Ib. destruct (Co _ Ib) as [C1 C2]. destruct (same_ns d s t WT P _ _ Ia Ib E) as (J1 & J2 & J3).
    unfold mutate_namespace. rewrite E, String.eqb_refl. cbn [negb]. cbv zeta.
    destruct (concat_res_some (create_struct d) (od_difference s_key (n_structs (snd p)) (n_structs (fst p)))) as [ss Hss]; [intros x I; apply difference_in in I as [I _]; now apply C1|]. rewrite Hss. cbn [bind].
    destruct (concat_res_some (create_table d) (od_difference t_key (n_tables (snd p)) (n_tables (fst p)))) as [ts Hts]; [intros x I; apply difference_in in I as [I _]; now apply C2|]. rewrite Hts. cbn [bind].
    rewrite (concat_res_nil (fun q => mutate_enum (fst q) (snd q))) by (intros q Iq; destruct (enums_common _ _ q Ia Ib E Iq) as [Eq _]; rewrite Eq; apply enum_noop; now apply enum_eqb_eq). cbn [bind].
    rewrite (concat_res_nil (fun q => mutate_struct d (fst q) (snd q))) by (intros q Iq; destruct (structs_common _ _ q Ia Ib E Iq) as [Eq I]; pose proof (nk_members _ (ns_keyed_wf t _ WT Ib) _ I) as Nm; rewrite Eq; apply struct_noop; [exact Nm|exact (struct_eqb_refl _ Nm)]). cbn [bind].
    rewrite (concat_res_nil (fun q => mutate_table d (fst q) (snd q))); [cbn [bind]; eexists; reflexivity|].
    intros q Iq. destruct (tables_common _ _ q Ia Ib E Iq) as [Eq I]. pose proof (nk_table _ (ns_keyed_wf t _ WT Ib) _ I) as Nt. rewrite Eq. apply table_noop_ok; auto using table_eqb_refl.
    intros Hd c Ic. destruct (C2 _ I) as [r Hr]. unfold create_table in Hr. apply bind_inv in Hr as (cols & Hc & _). apply TabProofs2.map_res_ok in Hc as [Hc _]. destruct (Hc c Ic) as [cd Hcd].
    unfold column_def in Hcd. apply bind_inv in Hcd as (? & _ & Hcd). cbv zeta in Hcd. rewrite Hd in Hcd. apply bind_inv in Hcd as (m & Hm & _). eauto. }
  rewrite Hmu. cbn [bind]. do 3 eexists. reflexivity.
Qed.
End Grow.
Print Assumptions mutation_fine.
Print Assumptions grow_succeeds.

From Verif Require Import Compat ConvertSpec CloseSpec CreateSpec WriteSpec GrowProofs3.
Lemma writable_less dd env o r1 r2 : incl r1 r2 -> writable dd env o r2 -> writable dd env o r1.
Proof.
  intros HI [A B C E F G H I]. assert (V : forall v, value_class env r1 v -> value_class env r2 v) by (intros v (c & vs & x & y & Ic & R); exists c, vs, x, y; auto).
  constructor; eauto using relevant_less. intros c [Ic|Vc]; apply C; auto.
Qed.
