(** Descriptions play no role on engines that get no comments: databases and synchronization. *)
From Verif Require Import PyStr QuoteModel ObjectDict ObjectDictProofs Types Objects SqlAst Ddl Mutate SortSpec SortProofs EqProofs KeySpec NoopProofs HushSpec HushProofs DbSpec CatSpec CatProofs3 MutSpec RefSpec Session SessionSpec SessionProofs.
From Verif Require CatProofs5.
From Coq Require Import String List Permutation Lia.
From stdpp Require Import gmap strings.

Section Want.
  Context (d : dialect).
  Hypothesis Sd : silent d.
  Lemma hush_want_col c : want_col d (hush_col c) = want_col d c.
  Proof. destruct Sd as [-> | ->]; reflexivity. Qed.
  Lemma hush_want t : want_tab d (hush_tab t) = want_tab d t.
  Proof.
    unfold want_tab. cbn [t_columns t_pk t_constraints t_desc hush_tab]. assert (C : want_comment d None = want_comment d (t_desc t)) by (destruct Sd as [-> | ->]; reflexivity). rewrite C. f_equal.
    unfold want_cols. rewrite map_map. f_equal. apply map_ext. intros c. now rewrite hush_want_col.
  Qed.
  Lemma hush_names n : ns_names (hush_ns n) = ns_names n.
  Proof. unfold ns_names. cbn [n_enums n_structs n_tables hush_ns]. rewrite map_map. reflexivity. Qed.
  Lemma hush_objs n : ns_objs d (hush_ns n) = ns_objs d n.
  Proof. unfold ns_objs. cbn [n_enums n_structs n_tables hush_ns]. rewrite map_map. f_equal. f_equal. apply map_ext. intros t. now rewrite hush_want. Qed.
  Lemma hush_has t D : has_cat d t D -> has_cat d (hush t) D.
  Proof.
    unfold has_cat. intros [A B]. split.
    - intros n In_. apply in_map_iff in In_ as (m & <- & Im). exact (A m Im).
    - intros n k x In_. apply in_map_iff in In_ as (m & <- & Im). rewrite hush_objs. exact (B m k x Im).
  Qed.
  Lemma hush_cat_keys t : cat_keys (hush t) = cat_keys t.
  Proof. unfold cat_keys, hush. rewrite flat_map_map. f_equal. apply flat_map_ext. exact hush_names. Qed.
  Lemma hush_col_names t : col_names (hush_tab t) = col_names t.
  Proof. unfold col_names. cbn. rewrite map_map. reflexivity. Qed.
  Lemma hush_tab_wf t : tab_wf d t -> tab_wf d (hush_tab t).
  Proof.
    intros [A B C E F G H]. constructor; rewrite ?hush_col_names; auto.
    - intros c Ic. apply in_map_iff in Ic as (x & <- & Ix). exact (B x Ix).
    - intros c Ic. apply in_map_iff in Ic as (x & <- & Ix). exact (E x Ix).
  Qed.
  Lemma hush_ns_wf n : ns_wf d n -> ns_wf d (hush_ns n).
  Proof.
    intros [A B C E F]. constructor; rewrite ?hush_names; auto. intros x Ix. apply in_map_iff in Ix as (y & <- & Iy). apply hush_tab_wf, F, Iy.
  Qed.
  Lemma hush_wf t : cat_wf d t -> cat_wf d (hush t).
  Proof.
    intros [A B]. constructor.
    - unfold hush. rewrite map_map. exact A.
    - intros n In_. apply in_map_iff in In_ as (m & <- & Im). apply hush_ns_wf, B, Im.
  Qed.
End Want.
Lemma hush_circular c : List.NoDup (map n_name c) -> circular (hush c) -> circular c.
Proof.
  intros N Z. assert (N' : List.NoDup (map n_name (hush c))) by (unfold hush; now rewrite map_map).
  assert (S1 := cat_sort_correct c N). assert (S2 := cat_sort_correct (hush c) N'). rewrite hush_sort in S2. destruct (cat_sort c) as [c'|]; [|apply S1]. cbn [res_map] in S2. exfalso. now apply (proj2 S2).
Qed.
Section Sync.
  Context (d : dialect) (o : options) (X : explorer) (mods : list string) (t : catalog).
  Hypothesis Sd : silent d.
  Lemma hush_target s : res_map snd (mutate_catalog d o s (hush t)) = res_map snd (mutate_catalog d o s t).
  Proof. rewrite <- (hush_mutate_catalog d o s t Sd). rewrite <- (hush_mutate_catalog d o s (hush t) Sd). now rewrite hush_idem. Qed.
  (** the discovered catalog has no descriptions *)
  Lemma synchronize_again_hushed w :
    cat_wf d t -> sees_at X mods (hush t) (w_db w) -> (exists t' l0, gen_create d o [] (Ok t) = (t', Ok l0)) ->
    exists st, synchronize d o (engine_of d) X None mods (Ok t) w = (World st (w_db w), true, []).
  Proof.
    intros Wt Hs (t' & l0 & G). unfold synchronize. rewrite G. apply gen_create_ok in G as (s0 & G).
    assert (Wh := hush_wf d t Wt). assert (Kt := wf_keyed d (hush t) Wh). assert (Pt : Permutation t t').
    { apply CatProofs5.mutate_catalog_parts in G as (_ & Pt & _); [exact Pt|constructor|exact (cw_names _ _ Wt)]. }
    assert (Ph : Permutation (hush t) (hush t')) by (now apply Permutation_map).
    destruct Hs as (c & Hd & Kc & Ec). rewrite Hd. cbn [negb]. unfold gen_mutate.
    assert (Nt : ~ circular (hush t)).
    { intros Z. apply hush_circular in Z; [|apply NoDup_ListNoDup, (cw_names _ _ Wt)]. revert Z. unfold mutate_catalog in G. destruct (cat_sort []); simpl in G; [|discriminate]. destruct (cat_sort t) eqn:S; simpl in G; [|discriminate]. eapply sort_not_circular; [exact (cw_names _ _ Wt)|exact S]. }
    destruct (mutation_noop_ok d o c (hush t')) as (c' & t'' & M).
    - exact Kc.
    - exact (keyed_perm (hush t) (hush t') Ph Kt).
    - intros Z. apply Nt. exact (circular_eqb c (hush t) Kc Kt Ec Z).
    - intros Z. apply Nt. eapply circular_perm; [symmetry; exact Ph|exact Z].
    - intros ->. destruct Sd; discriminate.
    - rewrite <- (cat_eqb_perm_r c (hush t) (hush t') Kt Ph). exact Ec.
    - assert (E : res_map snd (mutate_catalog d o c t') = Ok []).
      { rewrite <- (hush_mutate_catalog d o c t' Sd). rewrite <- (hush_idem t'), (hush_mutate_catalog d o c (hush t') Sd), M. reflexivity. }
      destruct (mutate_catalog d o c t') as [[[a b] l]|]; [|discriminate E]. cbn in E. injection E as ->. eexists. reflexivity.
  Qed.
End Sync.
