(** Proofs about the PostgreSQL explorer: discovery of a catalog. *)
From Verif Require Import PyStr QuoteModel QuoteSpec ObjectDict ObjectDictProofs Types EqProofs Objects SqlAst Ddl Mutate DbSpec CatSpec CatProofs3 MutSpec RefSpec KeySpec Discover PgExplore PgCatSpec PgProofs1 PropsDiscover ExploreSpec PgProofs2 NoopProofs PgProofs3 PgProofs4 PgProofs5 Session SessionSpec SessionProofs.
From Verif Require Factory DiscoverSpec MergeProofs.
From Coq Require Import List String Sorted Permutation Lia.
From stdpp Require Import gmap strings.

Lemma discover_into_new X D mods : forall st rs, Forall2 (fun m n' => X D m = Ok n' /\ n_name n' = m) mods rs -> List.NoDup (map n_name st ++ mods) -> discover_into X D mods st = ((st ++ rs)%list, true).
Proof.
  induction mods as [|m mods IH]; intros st rs F N; inversion F as [|? ? ? ? [E1 E2] F']; subst; cbn [discover_into].
  - now rewrite app_nil_r.
  - rewrite E1. assert (G : od_get n_name (n_name y) st = None). { apply get_none. intros I. apply NoDup_remove_2 in N. apply N. apply in_or_app. now left. }
    cbn [cat_merge]. rewrite G, (MergeProofs.add_fresh n_name y st G). cbn [bind]. rewrite (IH _ l').
    + now rewrite <- app_assoc.
    + exact F'.
    + rewrite map_app. cbn. rewrite <- app_assoc. exact N.
Qed.
Lemma discover_found X D mods t : List.NoDup (map n_name t) -> Permutation mods (map n_name t) ->
  (forall n, In n t -> exists n', X D (n_name n) = Ok n' /\ n_name n' = n_name n /\ ns_keyed n' /\ ns_eqb n' n = true) -> sees_at X mods t D.
Proof.
  intros N Pm H. destruct (collect n_name (X D) ns_keyed ns_eqb (map n_name t) mods t Pm N N (fun k => iff_refl _) H) as (r & E & Nr & Gr & Er & _).
  exists r. apply map_res_forall2 in E. assert (Nm : List.NoDup mods) by exact (Permutation_NoDup (Permutation_sym Pm) N).
  assert (F : Forall2 (fun m n' => X D m = Ok n' /\ n_name n' = m) mods r).
  { assert (Q : forall m, In m mods -> exists n, In n t /\ n_name n = m) by (intros m I; apply (Permutation_in _ Pm), in_map_iff in I as (n & ? & ?); eauto). revert Q. clear -E H. induction E as [|m n' mods r E F IH]; intros Q; constructor.
    - split; [exact E|]. destruct (Q m (or_introl eq_refl)) as (n & I & <-). destruct (H n I) as (n1 & E1 & E2 & _). rewrite E1 in E. now injection E as <-.
    - apply IH. intros x I. apply Q. now right. }
  split; [unfold discover; now rewrite (discover_into_new X D mods [] r F Nm)|]. split; [constructor; [exact Nr|exact Gr]|exact Er].
Qed.

Section Discover.
  Context (show : option string -> string -> string) (deparse : sqltype -> string -> string) (order : forall A : Type, string -> list A -> list A) (current : option string).
  Context (view : db -> pgcat).
  Definition pg_explorer : explorer := fun D m => explore order current (view D) m.
  Hypothesis AO : any_order order.
  Hypothesis KO : keys_in_order order.
  Hypothesis SH : DiscoverSpec.show_ok show.
  Context (t : catalog) (D : db) (mods : list string).
  Hypothesis W : cat_wf DPg t.
  Hypothesis S : forall n, In n t -> ns_seen deparse n.
  Hypothesis Pm : Permutation mods (map n_name t).
  Hypothesis Has : has_cat DPg t D.
  Hypothesis Only : forall k x, db_objs D !! k = Some x -> In (fst k) mods -> In k (cat_keys t).
  Hypothesis V : reports show deparse (view D) D t.

  Lemma catalog_found : sees_at pg_explorer mods t D.
  Proof.
    destruct V as (K & OA & TO & Lab). assert (N : List.NoDup (map n_name t)) by apply nodup_list, (cw_names _ _ W).
    apply discover_found; [exact N|exact Pm|]. intros n I. pose proof (S n I) as Sn. pose proof (cw_ns _ _ W n I) as Wn.
    unfold pg_explorer, explore. destruct (String.eqb_spec (n_name n) "") as [Z|Z]; [destruct (sn_name _ _ Sn Z)|].
    apply (namespace_found show deparse (view D) order K OA AO KO SH D n Wn Sn TO).
    - destruct (proj1 Has n I) as [Q|Q]; [contradiction|exact Q].
    - intros k x J. exact (proj2 Has n k x I J).
    - intros k x H E. assert (J : In k (cat_keys t)). { apply (Only k x H). rewrite E. apply (Permutation_in _ (Permutation_sym Pm)). now apply in_map. }
      apply in_cat_keys in J as (m & Im & J). assert (m = n) as ->; [|exact J]. apply (keyed_eq n_name t m n N Im I). rewrite <- E. apply in_map_iff in J as (q & <- & Iq). symmetry. exact (nw_scope _ _ (cw_ns _ _ W m Im) q Iq).
    - exact (Lab n I).
  Qed.
End Discover.
