From Verif Require Import PyStr QuoteModel ObjectDict ObjectDictSpec ObjectDictProofs Types Objects TopoSpec TopoProofs SortSpec.
From Coq Require Import String Relations Lia Arith List Permutation.
Import ListNotations.
Open Scope list_scope.

Lemma uses_refs n q : uses n q <-> In q (flat_map struct_refs (n_structs n) ++ flat_map (fun t => table_type_refs t ++ table_refs t) (n_tables n)).
Proof.
  rewrite in_app_iff, !in_flat_map. split.
  - intros [x m I J E|x c I J E|x k cs rc I J|x k cs refs rc I J L].
    + left. exists x. split; [exact I|]. unfold struct_refs. apply in_flat_map. exists m. split; [exact J|]. rewrite E. now left.
    + right. exists x. split; [exact I|]. apply in_or_app. left. unfold table_type_refs. apply in_flat_map. exists c. split; [exact J|]. rewrite E. now left.
    + right. exists x. split; [exact I|]. apply in_or_app. right. unfold table_refs. apply in_flat_map. eexists. split; [exact J|]. now left.
    + right. exists x. split; [exact I|]. apply in_or_app. right. unfold table_refs. apply in_flat_map. eexists. split; [exact J|]. simpl. now apply (in_map fst) in L.
  - intros [(x & I & H)|(x & I & H)].
    + unfold struct_refs in H. apply in_flat_map in H as (m & J & H). destruct (user_ref (m_type m)) eqn:E; [|contradiction]. destruct H as [<-|[]]. eapply uses_member; eauto.
    + apply in_app_or in H as [H|H].
      * unfold table_type_refs in H. apply in_flat_map in H as (m & J & H). destruct (user_ref (c_type m)) eqn:E; [|contradiction]. destruct H as [<-|[]]. eapply uses_column; eauto.
      * unfold table_refs in H. apply in_flat_map in H as (k & J & H). destruct k as [?|n0 cs rt rc|n0 cs refs|?]; try contradiction.
        { destruct H as [<-|[]]. eapply uses_foreign; eauto. }
        { apply in_map_iff in H as ([q' rc] & <- & H). eapply uses_discr; eauto. }
Qed.

Lemma get_in {A} (key : A -> string) l x : NoDup (map key l) -> In x l -> od_get key (key x) l = Some x.
Proof.
  unfold od_get. induction l as [|y l IH]; simpl; [contradiction|]. intros W [->|I].
  - now rewrite String.eqb_refl.
  - inversion W as [|? ? N W']; subst. destruct (String.eqb_spec (key y) (key x)) as [E|E]; [|auto]. exfalso. apply N. rewrite E. now apply in_map.
Qed.
Lemma get_in_some {A} (key : A -> string) k l x : od_get key k l = Some x -> In x l /\ key x = k.
Proof.
  unfold od_get. induction l as [|y l IH]; simpl; [discriminate|]. destruct (String.eqb_spec (key y) k) as [E|E].
  - intros [= ->]. auto.
  - intros H. destruct (IH H). auto.
Qed.

Section Sort.
  Variable c : catalog.
  Hypothesis W : NoDup (map n_name c).

  Lemma succ_depends a b : edge (ns_succ c) a b <-> depends c a b.
  Proof.
    unfold edge, ns_succ, depends. split.
    - intros [H N]. destruct (od_get n_name a c) as [x|] eqn:G; [|contradiction]. apply get_in_some in G as [I E].
      apply filter_In in H as [H M]. split; [congruence|].
      rewrite mem_get in M. destruct (od_get n_name b c) as [y|] eqn:G; [|discriminate]. apply get_in_some in G as [Iy Ey].
      unfold referenced_namespaces in H. apply in_flat_map in H as (q & Hq & Hs). apply uses_refs in Hq.
      destruct (scope_id q) as [z|] eqn:Es; [|contradiction]. destruct Hs as [->|[]]. exists x, y, q. auto 10.
    - intros (N & x & y & q & I & J & Ex & Ey & U & Es). split; [|congruence]. subst a. rewrite (get_in n_name c x W I).
      apply filter_In. split.
      + unfold referenced_namespaces. apply in_flat_map. exists q. split; [now apply uses_refs|]. rewrite Es. now left.
      + rewrite mem_get. subst b. now rewrite (get_in n_name c y W J).
  Qed.
  Lemma succ_closed n m : In n (map n_name c) -> In m (ns_succ c n) -> In m (map n_name c).
  Proof.
    intros _ H. unfold ns_succ in H. destruct (od_get n_name n c); [|contradiction]. apply filter_In in H as [_ H].
    rewrite mem_get in H. destruct (od_get n_name m c) as [y|] eqn:G; [|discriminate]. apply get_in_some in G as [I <-]. now apply in_map.
  Qed.
  Lemma nodup_of_map {A B} (f : A -> B) l : NoDup (map f l) -> NoDup l.
  Proof. induction l as [|x l IH]; simpl; intros H; constructor; inversion H; subst; auto. intros I. apply (in_map f) in I. contradiction. Qed.

  Lemma clos_iff (R R' : string -> string -> Prop) n m : (forall a b, R a b -> R' a b) -> clos_trans _ R n m -> clos_trans _ R' n m.
  Proof. intros H. induction 1 as [a b E|a b c0 _ IH1 _ IH2]; [apply t_step; auto|eapply t_trans; eauto]. Qed.
  Lemma depends_in a b : depends c a b -> In a (map n_name c).
  Proof. intros (_ & x & y & q & I & _ & <- & _). now apply in_map. Qed.
  Lemma cyclic_circular : cyclic (ns_succ c) (map n_name c) <-> circular c.
  Proof.
    split.
    - intros (n & _ & H). exists n. revert H. apply clos_iff. intros a b. apply succ_depends.
    - intros (n & H). exists n. split.
      + apply clos_trans_t1n in H. inversion H as [y H1|y z H1 H2]; subst; eapply depends_in; eassumption.
      + revert H. apply clos_iff. intros a b. apply succ_depends.
  Qed.

  Theorem cat_sort_correct :
    match cat_sort c with
    | Ok c' => sorted_catalog c c' /\ ~ circular c
    | Err e => e = "RuntimeError"%string /\ circular c
    end.
  Proof.
    unfold cat_sort. change (od_keys n_name c) with (map n_name c).
    assert (T := topological_sort_correct (ns_succ c) (map n_name c) succ_closed).
    destruct (topological_sort (map n_name c) (ns_succ c)) as [ord|e]; cbn [bind].
    2:{ rewrite <- cyclic_circular. exact T. }
    assert (Ac := topo_acyclic (ns_succ c) (map n_name c) succ_closed ord T). rewrite cyclic_circular in Ac.
    destruct T as (T1 & T2 & T3).
    destruct (od_reorder n_name ord c) as [c'|e] eqn:R.
    - split; [|exact Ac]. apply reorder_ok in R as (K & G & _). rewrite dedup_nodup_id in K by exact T1. unfold od_keys in K.
      assert (W' : NoDup (map n_name c')) by (rewrite K; exact T1).
      split.
      + apply NoDup_Permutation; [eapply nodup_of_map; exact W|eapply nodup_of_map; exact W'|]. intros x. split; intros I.
        * assert (E := G (n_name x)). rewrite (proj2 (str_in_iff (n_name x) ord)) in E by (apply T2; now apply in_map).
          rewrite (get_in n_name c x W I) in E. now apply get_in_some in E.
        * assert (E := G (n_name x)). rewrite (get_in n_name c' x W' I) in E. destruct (str_in (n_name x) ord); [|discriminate]. symmetry in E. now apply get_in_some in E.
      + intros l1 n l2 E b D. assert (E' : ord = map n_name l1 ++ n_name n :: map n_name l2) by (rewrite <- K, E, map_app; reflexivity).
        apply succ_depends in D. assert (Ib := T3 _ _ _ E' b D). apply in_map_iff in Ib as (m & <- & Im). eauto.
    - exfalso. apply reorder_err in R as (_ & k & Ik & G). apply T2 in Ik. apply get_none in G. contradiction.
  Qed.
End Sort.
