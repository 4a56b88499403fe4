(** Proofs about creatable catalogs, part 4: the catalog. *)
From Verif Require Import PyStr QuoteModel ObjectDict ObjectDictProofs Types Objects SqlAst Ddl DbSpec CatSpec RefSpec Compat Convert ConvertSpec ConvertProofs CloseSpec
  CloseProofs1 CloseProofs2 CloseProofs3 CloseProofs4 CloseProofs5 CloseProofs6 CreateSpec CreateProofs1 CreateProofs2 CreateProofs3.
From Coq Require Import List Permutation Lia.
From stdpp Require Import gmap strings.
Open Scope string_scope.

Lemma nodup_std {A} (l : list A) : List.NoDup l -> base.NoDup l.
Proof. intros H. now apply NoDup_ListNoDup. Qed.
Lemma refs_uses : forall s q, In q (type_refs s) -> CloseSpec.uses s q /\ forall g, q <> Global g.
Proof.
  fix IH 1. intros s q. destruct s; simpl; try (intros []; fail).
  - intros I. destruct (IH _ _ I) as [A B]. split; [now constructor|exact B].
  - intros I. cut (exists n t b, In (n, t, b) fields /\ CloseSpec.uses t q /\ forall g, q <> Global g).
    { intros (n & t & b & J & U & G). split; [econstructor; eauto|exact G]. }
    revert fields I. fix G 1. intros [|[[n t] b] r] I; [destruct I|]. apply in_app_iff in I as [I|I].
    + destruct (IH _ _ I) as [A B]. exists n, t, b. simpl. auto.
    + destruct (G r I) as (n' & t' & b' & J & X). exists n', t', b'. simpl. auto.
  - destruct ref; simpl; try (intros []; fail); intros [<-|[]]; split; try constructor; discriminate.
  - intros I. destruct (IH _ _ I) as [A B]. split; [now constructor|exact B].
Qed.

Section Create4.
Context (env : cid -> classdef) (o : copts) (refs : list cid) (fuel : nat) (dd : Ddl.dialect).
Hypothesis HO : ordinary env o refs.
Hypothesis HT : ordinary_types env o refs.
Hypothesis HR : creatable env o refs.
Context (topo : list cid -> list cid) (ets : list (string * enumt)) (sts : list (string * structt)) (ts : list (string * table)) (cat : catalog).
Hypothesis TP : forall l, Permutation (topo l) l.
Hypothesis TD : forall l, (forall c, In c l <-> In c refs /\ structure env c) -> dependencies_first env (topo l).
Hypothesis HE : enum_types env o refs = Ok ets.
Hypothesis HS : struct_types env o fuel topo refs = Ok sts.
Hypothesis HTs : all_tables env o fuel refs = Ok ts.
Hypothesis HCat : make_catalog o (multi_of ets) (multi_of sts) (multi_of ts) = Ok cat.

Lemma table_wf m t : In (m, t) ts -> tab_wf dd t.
Proof.
  intros I. destruct (tables_sound env o refs fuel HO (complete_classes env o refs HT) HR ts m t HTs I) as [A B C D E F G]. split.
  - now apply nodup_std.
  - intros c Ic. exact (B c Ic).
  - exact C.
  - exact D.
  - now apply nodup_std.
  - intros k n Ik In_. apply (F k n Ik). destruct k; exact In_.
  - intros _. exact G.
Qed.
Lemma all_names_distinct : base.NoDup (map n_name cat).
Proof.
  apply nodup_std. unfold make_catalog in HCat. destruct (o_qualified o).
  - clear - HCat. binds HCat. injection HCat as <-. apply made_nodup.
  - injection HCat as <-. simpl. constructor; [simpl; tauto|constructor].
Qed.
Lemma flat_table t : o_qualified o = false -> In t (concat (map snd (multi_of ts))) -> exists m, In (m, t) ts.
Proof. intros _. apply concat_in. Qed.
Lemma catalog_wf : cat_wf dd cat.
Proof.
  split; [exact all_names_distinct|]. intros n In_.
  destruct (parts env o refs fuel HT topo ets sts ts HE HS cat n HCat In_) as [(OQ & m & P)|(OQ & -> & -> & _ & ->)].
  - split.
    + intros q I. destruct (part_scope env o refs fuel HO HT HR topo ets sts ts TP HE HS HTs m n q P OQ I) as (k & N & K & S). unfold DbSpec.key_of. cbn [fst]. rewrite S, N. destruct k; reflexivity.
    + apply nodup_std. exact (names_nodup env o refs fuel HO HT HR topo ets sts ts TP HE HS HTs m n P OQ).
    + intros e Ie. apply nodup_std. destruct (enum_facts env o refs HT ets HE _ _ (part_enum o ets sts ts _ _ _ P Ie)) as (c & vs & Ic & K & _ & OE & _ & ->).
      exact (cr_values _ _ _ HR c vs OE Ic K).
    + intros u Iu. apply nodup_std. destruct (struct_facts env o refs fuel topo sts TP HS _ _ (part_struct o ets sts ts _ _ _ P Iu)) as (c & _ & _ & _ & _ & _ & _ & X). exact X.
    + intros t It. apply (table_wf m). exact (part_table o ets sts ts _ _ _ P It).
  - split.
    + intros q I. unfold ns_names in I. cbn [n_enums n_structs n_tables make_ns app map] in I. apply in_map_iff in I as (t & <- & It). apply make_in, concat_in in It as (m & It).
      destruct (table_facts env o refs fuel HO HT HR ts HTs m t It) as (c & n' & _ & _ & Q & _). unfold qualified_id_of in Q. binds Q. rewrite OQ in Q. injection Q as <-. reflexivity.
    + unfold ns_names. cbn [n_enums n_structs n_tables make_ns app map]. apply nodup_std.
      pose proof (made_nodup t_key (concat (map snd (multi_of ts)))) as X. unfold t_key at 1 in X. rewrite <- (map_map t_name local_id) in X. exact X.
    + intros e [].
    + intros u [].
    + intros t It. cbn [n_tables make_ns] in It. apply make_in, concat_in in It as (m & It). now apply (table_wf m).
Qed.

Lemma same_ns n n' : In n cat -> In n' cat -> n_name n = n_name n' -> n = n'.
Proof.
  pose proof all_names_distinct as N. apply NoDup_ListNoDup in N. revert N. clear. induction cat as [|x l IH]; simpl; [tauto|].
  intros N [<-|A] [<-|B] E; auto; inversion N as [|? ? N1 N2]; subst.
  - exfalso. apply N1. rewrite E. now apply in_map.
  - exfalso. apply N1. rewrite <- E. now apply in_map.
  - now apply IH.
Qed.
Lemma named_one c c' q : In c refs -> In c' refs -> class_qid o c = Ok q -> class_qid o c' = Ok q -> o_qualified o = true -> c = c'.
Proof.
  intros Ic Ic' Q Q' OQ. destruct (qid_scope o _ _ _ OQ Q) as (k & K & ->). destruct (qid_scope o _ _ _ OQ Q') as (k' & K' & E). injection E as E1 E2. subst k'.
  apply (ns_in o) in K, K'. destruct (ord_schemas _ _ _ HO _ _ _ _ K K' eq_refl) as [A _]. destruct c, c'; simpl in *. congruence.
Qed.
(** a type at home in module [m] is in the namespace, or named by its schema *)
Lemma home_resolved m n s q : part o ets sts ts m n -> In n cat -> o_qualified o = true ->
  at_home env o refs m s q -> (forall g, q <> Global g) -> CloseSpec.type_located cat q -> type_of n q \/ other_type cat n s q.
Proof.
  intros P In_ OQ [(g & G)|(c & [Ic Q] & K & D)] NG (n' & In' & N' & L); [now destruct (NG g)|].
  assert (TY : type_of n' q).
  { destruct L as [(e & Ie & <-)|(u & Iu & <-)]; [left|right]; eauto. }
  destruct (String.eqb (n_name n') (n_name n)) eqn:EN.
  - apply String.eqb_eq in EN. rewrite (same_ns _ _ In' In_ EN) in TY. auto.
  - apply String.eqb_neq in EN. right. destruct (qid_scope o _ _ _ OQ Q) as (k & Kk & Eq). rewrite Eq in N'. cbn [scope_id] in N'. destruct P as (k0 & g & K0 & _ & Pn).
    split.
    + destruct D as [D|D]; [exact D|]. exfalso. apply EN. rewrite Pn. cbn [n_name make_ns]. rewrite D in Kk. assert (k0 = k) by congruence. subst k0. exact N'.
    + exists n'. split; [exact In'|]. split; [exact EN|]. split; [|exact TY]. rewrite Eq. cbn [scope_id]. destruct k as [k|]; [now rewrite N'|]. exfalso.
      pose proof (ns_in o _ _ Kk) as Kk'. pose proof (ns_in o _ _ K0) as K0'.
      assert (M : m = fst c) by (apply (cr_named _ _ _ HR) with (n' := k0); [tauto|exact Kk'|exact K0']).
      apply EN. rewrite Pn, N'. cbn [n_name make_ns]. rewrite M in K0. assert (X : k0 = None) by congruence. now rewrite X.
Qed.
Lemma part_unique m m' n : part o ets sts ts m n -> part o ets sts ts m' n -> m = m'.
Proof.
  intros (k & g & K & _ & E) (k' & g' & K' & _ & E'). apply (ns_in o) in K, K'. assert (X : or_empty k = or_empty k') by (apply (f_equal n_name) in E, E'; simpl in *; congruence).
  now destruct (ord_schemas _ _ _ HO _ _ _ _ K K' X).
Qed.
Lemma topo_in l c : In c (topo l) <-> In c l.
Proof. split; apply Permutation_in; [|symmetry]; apply TP. Qed.
Lemma catalog_refs : refs_closed cat.
Proof.
  assert (TC : types_closed cat) by (eapply (closed_types env o refs fuel HO HT topo ts ets sts topo_in); eauto).
  assert (FC : foreign_keys_closed cat).
  { pose proof HTs as X. unfold all_tables in X. binds X. binds X. binds X. clear X. exact (closed env o refs fuel HO (complete_classes env o refs HT) ts v1 E1 HTs _ _ cat HCat). }
  split.
  - intros n l1 x l2 mb q In_ E Im Iq. assert (Ix : In x (n_structs n)) by (rewrite E; apply in_app_iff; simpl; auto).
    destruct (parts env o refs fuel HT topo ets sts ts HE HS cat n HCat In_) as [(OQ & m & P)|(OQ & -> & -> & _ & ->)]; [|destruct Ix].
    destruct (refs_uses _ _ Iq) as [U NG].
    destruct (TC n (m_type mb) q In_ U) as [(g & G)|L]; [right; eauto|now destruct (NG g)|].
    destruct (struct_facts env o refs fuel topo sts TP HS _ _ (part_struct o ets sts ts _ _ _ P Ix)) as (c & Ic & Sc & M & OS & Qc & Dc & _).
    destruct (struct_home env o refs fuel HO HT HR c x mb q Ic Dc Im U) as [H1 H2]. rewrite <- M in H1.
    destruct (home_resolved m n (m_type mb) q P In_ OQ H1 NG L) as [[T|(y & Iy & Ky)]|T]; auto.
    right. left. exists y. split; [|exact Ky].
    destruct (struct_facts env o refs fuel topo sts TP HS _ _ (part_struct o ets sts ts _ _ _ P Iy)) as (d & Id & Sd & Md & _ & Qd & Dd & _).
    assert (Y : class_qid o d = Ok q).
    { rewrite Qd. f_equal. destruct H1 as [(g & G)|(e & [Ie Qe] & _)]; [now destruct (NG g)|]. destruct (qid_scope o _ _ _ OQ Qe) as (k & Kk & Eq).
      destruct (qid_scope o _ _ _ OQ Qd) as (k' & K' & Es). rewrite Es, Eq in Ky |- *. unfold DbSpec.key_of in Ky. cbn [scope_id local_id] in Ky. injection Ky as K1 K2.
      apply (ns_in o) in Kk, K'. destruct (ord_schemas _ _ _ HO _ _ _ _ K' Kk) as [_ K3]; [destruct k, k'; exact K1|]. now rewrite K2, K3. }
    destruct (H2 d Y Id) as (f & If & Mf); [intros d' Id' Qd'; eapply named_one; eauto|exact Sd|].
    eapply (struct_order env o refs fuel HT HR topo ets sts ts TP TD HS m n l1 x l2 y c d f); eauto.
  - intros n t c q In_ It Ic Iq. destruct (refs_uses _ _ Iq) as [U NG].
    destruct (TC n (c_type c) q In_ U) as [(g & G)|L]; [left; eauto|now destruct (NG g)|].
    destruct (parts env o refs fuel HT topo ets sts ts HE HS cat n HCat In_) as [(OQ & m & P)|(OQ & Ee & Es & Ec & En)].
    + apply (home_resolved m n (c_type c) q P In_ OQ); auto. eapply (table_home env o refs fuel HO HT HR ts m t c q HTs); eauto. exact (part_table o ets sts ts _ _ _ P It).
    + left. destruct L as (n' & In' & _ & L). rewrite Ec in In'. destruct In' as [<-|[]]. destruct L as [(e & Ie & <-)|(u & Iu & <-)]; [left|right]; eauto.
  - intros n x k cs rt rc In_ Ix Ik. destruct (FC n x _ cs rt rc In_ Ix Ik (ref_foreign _ _ _ _)) as (t' & (n' & In' & _ & It' & Nt) & Pk & F2).
    split; [now apply Forall2_length in F2|]. exists n', t'. rewrite Nt. auto.
Qed.
End Create4.

Theorem creatable_catalog env o refs fuel topo cat dd :
  ordinary env o refs -> ordinary_types env o refs -> creatable env o refs ->
  (forall l, Permutation (topo l) l) -> (forall l, (forall c, In c l <-> In c refs /\ structure env c) -> dependencies_first env (topo l)) ->
  dataclasses_to_catalog env o fuel topo refs = Ok cat -> cat_wf dd cat /\ refs_closed cat.
Proof.
  intros HO HT HR TP TD H. unfold dataclasses_to_catalog in H. binds H. binds H. binds H. split.
  - eapply catalog_wf; eauto.
  - eapply catalog_refs; eauto.
Qed.
