(** Proofs about the Oracle explorer: namespaces and catalogs. *)
From Verif Require Import PyStr QuoteModel QuoteSpec QuoteProofs ObjectDict ObjectDictProofs Types EqProofs Objects SqlAst Ddl Mutate DbSpec CatSpec CatProofs3 MutSpec RefSpec KeySpec Discover PropsDiscover PgProofs1 NoopProofs PgProofs3 PgProofs4 PgProofs5 PgProofs6 IsExplore IsSeenSpec IsCatSpec IsProofs3 Flat FlatSpec PropsFlat Session SessionSpec SessionProofs OrExplore OrCatSpec OrProofs1.
From Verif Require Factory DiscoverSpec PgExplore MergeProofs NsProofs4 NsProofs5.
From Coq Require Import List String Sorted Permutation Lia.
From stdpp Require Import gmap strings.

(** ** Engines without schemas: the modules are read one after the other into one namespace *)
Section FlatDiscover.
  Context (read : qid -> res table) (X : explorer) (D : db) (mods : list string) (tabs : list table) (ids : string -> list qid).
  Hypothesis HX : forall m ts, map_res read (ids m) = Ok ts -> List.NoDup (map t_key ts) -> X D m = Ok (Ns "" [] [] ts).
  Hypothesis NT : List.NoDup (map t_key tabs).
  Hypothesis II : forall q, In q (flat_map ids mods) <-> exists x, In x tabs /\ t_name x = q.
  Hypothesis IN : List.NoDup (map local_id (flat_map ids mods)).
  Hypothesis One : forall x, In x tabs -> exists x', read (t_name x) = Ok x' /\ t_key x' = t_key x /\ table_keyed x' /\ table_eqb x' x = true.
  Hypothesis SM : mods <> [].

  Lemma flat_tables : exists ts, map_res read (flat_map ids mods) = Ok ts /\ List.NoDup (map t_key ts) /\ (forall x, In x ts -> table_keyed x) /\ od_eqb t_key table_eqb ts tabs = true.
  Proof.
    set (get := fun k => match List.find (fun x => String.eqb (t_key x) k) tabs with Some x => read (t_name x) | None => Err "" end).
    assert (FD : forall x, In x tabs -> List.find (fun y => String.eqb (t_key y) (t_key x)) tabs = Some x).
    { intros x Ix. destruct (List.find _ tabs) as [y|] eqn:F.
      - apply find_some in F as [Iy E]. apply String.eqb_eq in E. f_equal. exact (keyed_eq t_key tabs y x NT Iy Ix E).
      - exfalso. pose proof (find_none _ _ F x Ix) as Z. cbn in Z. rewrite String.eqb_refl in Z. discriminate. }
    destruct (collect t_key get table_keyed table_eqb (map local_id (flat_map ids mods)) (map local_id (flat_map ids mods)) tabs (Permutation_refl _) IN NT) as (ts & E & N & Ky & Q & _).
    - intros k. rewrite in_map_iff. split.
      + intros (q & <- & Iq). apply II in Iq as (x & Ix & <-). apply (in_map t_key) in Ix. exact Ix.
      + intros H. apply in_map_iff in H as (x & <- & Ix). exists (t_name x). split; [reflexivity|]. apply II. eauto.
    - intros x Ix. unfold get. rewrite (FD x Ix). exact (One x Ix).
    - exists ts. split; [|auto]. rewrite <- E. symmetry. apply map_res_ext. intros q Iq. apply II in Iq as (x & Ix & <-). unfold get. change (local_id (t_name x)) with (t_key x). now rewrite (FD x Ix).
  Qed.
  Lemma flat_into ms : forall acc ts, map_res read (flat_map ids ms) = Ok ts -> List.NoDup (map t_key (acc ++ ts)) ->
    discover_into X D ms [Ns "" [] [] acc] = ([Ns "" [] [] (acc ++ ts)], true).
  Proof.
    induction ms as [|m ms IH]; intros acc ts E N; cbn [flat_map] in E.
    - cbn in E. injection E as <-. cbn. now rewrite app_nil_r.
    - apply map_res_app in E as (r1 & r2 & E1 & E2 & ->). cbn [discover_into]. assert (N' := N). rewrite !map_app in N'. apply nodup_list, NoDup_app in N' as (Na & _ & N'). apply NoDup_app in N' as (N1 & _ & N2). apply nodup_list in N1.
      rewrite (HX m r1 E1 N1). assert (Z : merge_objs t_key table_eqb acc r1 = Ok (acc ++ r1)). { apply merge_fresh. rewrite app_assoc, map_app in N. apply nodup_list, NoDup_app in N as (N & _). now apply nodup_list. }
      assert (CMe : cat_merge [Ns "" [] [] acc] [Ns "" [] [] r1] = Ok [Ns "" [] [] (acc ++ r1)]). { cbn -[merge_objs]. unfold ns_merge. cbn -[merge_objs]. change (merge_objs e_key enum_eqb [] []) with (Ok (@nil enumt)). change (merge_objs s_key struct_eqb [] []) with (Ok (@nil structt)). cbn -[merge_objs]. rewrite Z. reflexivity. }
      rewrite CMe. rewrite (IH (acc ++ r1) r2 E2); [now rewrite <- app_assoc|]. now rewrite <- app_assoc.
  Qed.
  Lemma flat_found : sees_at X mods [Ns "" [] [] tabs] D.
  Proof.
    destruct flat_tables as (ts & E & N & Ky & Q). exists [Ns "" [] [] ts]. split; [|split].
    - unfold discover. destruct mods as [|m ms]; [congruence|]. cbn [flat_map] in E. apply map_res_app in E as (r1 & r2 & E1 & E2 & ->). cbn [discover_into].
      assert (N' := N). rewrite map_app in N'. apply nodup_list, NoDup_app in N' as (N1 & _ & _). apply nodup_list in N1. rewrite (HX m r1 E1 N1). cbn [cat_merge od_get]. cbn.
      apply (flat_into ms r1 r2 E2 N).
    - constructor; [cbn; repeat constructor; intros []|]. intros n [<-|[]]. constructor; cbn [n_enums n_structs n_tables]; [constructor|constructor|exact N|intros x []|exact Ky].
    - unfold cat_eqb, od_eqb. cbn. unfold ns_eqb. cbn. rewrite Q. reflexivity.
  Qed.
End FlatDiscover.

Lemma listed_ordinary r : listed_table r = true <-> ordinary r.
Proof.
  unfold listed_table, ordinary. rewrite !andb_true_iff, negb_true_iff, String.eqb_neq. destruct (ot_space r) as [s|].
  - rewrite negb_true_iff, String.eqb_neq. split; [intros [[A B] C]; eauto|]. intros (A & (s' & E & B) & C). injection E as <-. auto.
  - split; [intros [[_ Z] _]; discriminate Z|]. intros (_ & (s' & E & _) & _). discriminate E.
Qed.

Section OrDiscover.
  Context (deparse : sqltype -> string -> string) (w : Z) (user : string) (order : forall A : Type, string -> list A -> list A) (view : db -> dictionary) (listed : db -> string -> list string).
  Definition or_explorer : explorer := fun D m => or_namespace (view D) order (listed D m).
  (** the views are consistent and report database [D]; the server answers the query for the names of tables; no other user
      has tables in these namespaces *)
  Definition or_reports (D : db) (mods : list string) : Prop :=
    keys_ok (view D) /\ or_tells deparse w (view D) user D /\
    (forall m, In m mods -> answers (fun t => in_namespace (scope_of m) t /\ oracle_visible t) (candidates (view D)) (listed D m)) /\
    (forall m r, In m mods -> In r (dba_tables (view D)) -> ordinary r -> in_namespace (scope_of m) (ot_name r) -> ot_owner r = user).
  Hypothesis AO : any_order order.
  Context (tabs : list table) (D : db) (mods : list string) (created : list (option string * string)).
  Notation t := [Ns "" [] [] tabs].
  Hypothesis W : cat_wf DOracle t.
  Hypothesis S : forall x, In x tabs -> or_tab_seen deparse x.
  Hypothesis Has : has_cat DOracle t D.
  (** the tables of the user *)
  Hypothesis All : forall k, is_Some (db_objs D !! (""%string, k)) <-> In k (table_names created).
  Hypothesis Clear : forall q, In q created -> clear_id q.
  Hypothesis Vis : forall k, In k (table_names created) -> oracle_visible k.
  Hypothesis CM : forall m n, In m mods -> scope_of m = Some n -> clean n.
  (** those of the modules are in the catalog *)
  Hypothesis Mine : forall ns i, (In (ns, i) created /\ exists m, In m mods /\ scope_of m = ns) <-> exists x, In x tabs /\ t_name x = Prefixed ns i.
  Hypothesis Shape : forall x, In x tabs -> exists ns i, t_name x = Prefixed ns i.
  Hypothesis NM : List.NoDup mods.
  Hypothesis SM : mods <> [].
  Hypothesis V : or_reports D mods.

  Lemma candidates_spec k m : In m mods -> in_namespace (scope_of m) k -> (In k (candidates (view D)) <-> In k (table_names created)).
  Proof.
    intros Im In_. destruct V as (K & TO & _ & Ow). rewrite <- All. unfold candidates. rewrite in_map_iff. split.
    - intros (r & <- & Ir). apply filter_In in Ir as [Ir E]. apply listed_ordinary in E. apply (ot_only _ _ _ _ _ TO r Ir); [exact (Ow m r Im Ir E In_)|exact E].
    - intros [x X]. destruct (ot_objs _ _ _ _ _ TO k _ X) as (tb & _ & (r & Ir & E & O & _) & _). injection E as E1 E2. exists r. split; [exact E2|]. apply filter_In. split; [exact Ir|now apply listed_ordinary].
  Qed.
  Lemma or_listed m : In m mods -> exactly (oracle_ids (listed D m)) created (scope_of m).
  Proof.
    intros Im. destruct V as (_ & _ & AN & _). destruct (AN m Im) as [N H].
    apply C33_oracle_isolated; [exact Clear|intros n E; exact (CM m n Im E)| |].
    - intros q Iq. apply Vis. unfold table_names. apply in_map_iff. eauto.
    - split; [exact N|]. intros x. rewrite H. split; intros [A B]; (split; [|exact B]); apply (candidates_spec x m Im (proj1 B)); exact A.
  Qed.
  Lemma or_ids_in q : In q (flat_map (fun m => oracle_ids (listed D m)) mods) <-> exists x, In x tabs /\ t_name x = q.
  Proof.
    rewrite in_flat_map. split.
    - intros (m & Im & Iq). destruct (proj2 (or_listed m Im) q) as [H _]. destruct (H Iq) as (i & -> & Ic). apply Mine. eauto.
    - intros (x & Ix & E). destruct (Shape x Ix) as (ns & i & En). rewrite E in En. subst q. destruct (proj2 (Mine ns i)) as (Ic & m & Im & Em); [eauto|]. exists m. split; [exact Im|]. apply (proj2 (or_listed m Im)). rewrite Em. eauto.
  Qed.
  Lemma or_ids_nodup : List.NoDup (map local_id (flat_map (fun m => oracle_ids (listed D m)) mods)).
  Proof.
    assert (G : forall ms, List.NoDup ms -> (forall m, In m ms -> In m mods) -> List.NoDup (map local_id (flat_map (fun m => oracle_ids (listed D m)) ms))).
    { induction ms as [|m ms IH]; intros N Sb; [constructor|]. inversion N; subst. cbn [flat_map]. rewrite map_app. apply nodup_list, NoDup_app. split; [|split].
      - apply nodup_list. rewrite C33_oracle_ids_name_the_tables. destruct V as (_ & _ & AN & _). apply (AN m (Sb m (or_introl eq_refl))).
      - intros k Ik Jk. apply elem_of_list_In, in_map_iff in Ik as (q & <- & Iq). apply elem_of_list_In, in_map_iff in Jk as (q' & E & Jq). apply in_flat_map in Jq as (m' & Im' & Jq).
        apply (proj2 (or_listed m (Sb m (or_introl eq_refl)))) in Iq as (i & -> & Ic). apply (proj2 (or_listed m' (Sb m' (or_intror Im')))) in Jq as (i' & -> & Jc).
        destruct (flat_inj (scope_of m') i' (scope_of m) i) as [E1 _]; [apply clear_safe, Clear, Jc|apply clear_safe, Clear, Ic|exact E|]. apply scope_inj in E1. subst m'. contradiction.
      - apply nodup_list, IH; [assumption|]. intros x Ix. apply Sb. now right. }
    apply G; auto.
  Qed.
  Lemma or_one x : In x tabs -> exists x', or_table (view D) order (t_name x) = Ok x' /\ t_key x' = t_key x /\ table_keyed x' /\ table_eqb x' x = true.
  Proof.
    intros Ix. destruct V as (K & TO & _). destruct (Shape x Ix) as (ns & i & En).
    assert (E : key_of (t_name x) = (""%string, local_id (t_name x))) by (rewrite En; reflexivity).
    assert (O : db_objs D !! key_of (t_name x) = Some (OTable (want_tab DOracle x))) by (apply (proj2 Has (Ns "" [] [] tabs)); [now left|]; apply in_ns_objs; right; right; eauto).
    rewrite E in O. destruct (ot_objs _ _ _ _ _ TO _ _ O) as (tb & Eo & Ta & Al & T). injection Eo as <-. cbn in Ta.
    destruct (or_table_found deparse w (view D) user order K AO x) as (x' & G & Nm & Ky & Q); auto.
    - apply (nw_table _ _ (cw_ns _ _ W _ (or_introl eq_refl))). exact Ix.
    - exists x'. split; [exact G|]. split; [unfold t_key; now rewrite Nm|]. split; [exact Ky|exact Q].
  Qed.
  Lemma or_catalog_found : sees_at or_explorer mods t D.
  Proof.
    apply (flat_found (or_table (view D) order) or_explorer D mods tabs (fun m => oracle_ids (listed D m))).
    - intros m ts E N. unfold or_explorer, or_namespace. destruct (listed D m) as [|x l]; [cbn in E; injection E as <-; reflexivity|]. rewrite E. cbn [bind]. now rewrite (make_id t_key ts N).
    - destruct (ns_parts_nodup (Ns "" [] [] tabs)) as (_ & _ & N3); [apply nodup_list, (nw_keys _ _ (cw_ns _ _ W _ (or_introl eq_refl)))|exact N3].
    - exact or_ids_in.
    - exact or_ids_nodup.
    - exact or_one.
    - exact SM.
  Qed.
End OrDiscover.
