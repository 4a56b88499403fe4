(** Proofs about [ObjectDict]. *)
From Verif Require Import PyStr ObjectDict ObjectDictSpec.
From Coq Require Import Sorting.Permutation Sorting.Sorted.
Open Scope list_scope.

Section OD.
  Context {A : Type} (key : A -> string).
  Notation get := (od_get key).
  Notation mem := (od_mem key).
  Notation keys := (od_keys key).
  Definition wf (d : list A) : Prop := NoDup (keys d).

  Lemma get_cons k x d : get k (x :: d) = if String.eqb (key x) k then Some x else get k d.
  Proof. reflexivity. Qed.

  Lemma get_some k d x : get k d = Some x -> In x d /\ key x = k.
  Proof.
    unfold od_get. intros H. apply find_some in H. destruct H as [H E].
    apply String.eqb_eq in E. now split.
  Qed.

  Lemma get_none k d : get k d = None <-> ~ In k (keys d).
  Proof.
    induction d as [|x d IH]; [simpl; split; [tauto|reflexivity]|].
    rewrite get_cons. simpl. destruct (String.eqb_spec (key x) k) as [->|N].
    - split; [discriminate| tauto].
    - rewrite IH. tauto.
  Qed.

  Lemma get_in d x : wf d -> In x d -> get (key x) d = Some x.
  Proof.
    induction d as [|y d IH]; intros W H; [contradiction|]. rewrite get_cons.
    unfold wf in W. simpl in W. inversion W as [|? ? N W']; subst.
    destruct H as [->|H].
    - now rewrite String.eqb_refl.
    - destruct (String.eqb_spec (key y) (key x)) as [E|E]; [|now apply IH].
      exfalso. apply N. rewrite E. now apply in_map.
  Qed.

  Lemma get_iff d k x : wf d -> (get k d = Some x <-> In x d /\ key x = k).
  Proof.
    intros W. split; [apply get_some|]. intros [H <-]. now apply get_in.
  Qed.

  Lemma mem_spec k d : mem k d = true <-> In k (keys d).
  Proof.
    unfold od_mem, od_keys. rewrite existsb_exists, in_map_iff. split.
    - intros [x [H E]]. apply String.eqb_eq in E. eauto.
    - intros [x [E H]]. exists x. split; [exact H| now apply String.eqb_eq].
  Qed.

  Lemma mem_false k d : mem k d = false <-> ~ In k (keys d).
  Proof. rewrite <- mem_spec. destruct (mem k d); split; congruence. Qed.

  Lemma mem_get k d : mem k d = match get k d with Some _ => true | None => false end.
  Proof.
    destruct (get k d) as [x|] eqn:E.
    - apply mem_spec. apply get_some in E. destruct E as [H <-]. now apply in_map.
    - apply mem_false. now apply get_none.
  Qed.

  Lemma keys_app d e : keys (d ++ e) = keys d ++ keys e.
  Proof. apply map_app. Qed.

  Lemma get_app k d e : get k (d ++ e) = match get k d with Some x => Some x | None => get k e end.
  Proof. induction d as [|x d IH]; [reflexivity|]. simpl app. rewrite !get_cons. now destruct (String.eqb _ _). Qed.

  (** od_set *)
  Lemma set_get x d k : get k (od_set key x d) = if String.eqb (key x) k then Some x else get k d.
  Proof.
    induction d as [|y d IH]; [reflexivity|]. cbn [od_set].
    destruct (String.eqb_spec (key y) (key x)) as [E|E]; rewrite !get_cons.
    - rewrite E. now destruct (String.eqb _ _).
    - rewrite IH. destruct (String.eqb_spec (key y) k) as [E1|]; [|reflexivity].
      destruct (String.eqb_spec (key x) k) as [E2|]; [congruence|reflexivity].
  Qed.

  Lemma set_keys x d : keys (od_set key x d) = if mem (key x) d then keys d else keys d ++ [key x].
  Proof.
    induction d as [|y d IH]; [reflexivity|]. simpl.
    destruct (String.eqb_spec (key y) (key x)) as [E|E]; simpl.
    - now rewrite E.
    - rewrite IH. now destruct (mem (key x) d).
  Qed.

  Lemma nodup_snoc (l : list string) k : NoDup l -> ~ In k l -> NoDup (l ++ [k]).
  Proof.
    intros H N. apply Permutation_NoDup with (k :: l); [apply Permutation_cons_append|].
    now constructor.
  Qed.

  Lemma set_wf x d : wf d -> wf (od_set key x d).
  Proof.
    unfold wf. intros W. rewrite set_keys. destruct (mem (key x) d) eqn:E; [exact W|].
    apply mem_false in E. now apply nodup_snoc.
  Qed.

  (** od_make *)
  Lemma make_gen items d k :
    get k (fold_left (fun d x => od_set key x d) items d)
    = match get k (rev items) with Some x => Some x | None => get k d end.
  Proof.
    revert d. induction items as [|x items IH]; intros d; [reflexivity|].
    cbn [fold_left rev]. rewrite IH, set_get, get_app, get_cons.
    destruct (get k (rev items)); [reflexivity|]. now destruct (String.eqb _ _).
  Qed.

  Lemma make_get items k : get k (od_make key items) = get k (rev items).
  Proof. unfold od_make. rewrite make_gen. destruct (get k (rev items)); reflexivity. Qed.

  Lemma make_wf items : wf (od_make key items).
  Proof.
    unfold od_make.
    assert (G : forall d, wf d -> wf (fold_left (fun d x => od_set key x d) items d)).
    { induction items as [|x items IH]; intros d W; [exact W|]. simpl. apply IH. now apply set_wf. }
    apply G. constructor.
  Qed.

  Lemma filter_true {B} (f : B -> bool) l : (forall x, In x l -> f x = true) -> filter f l = l.
  Proof.
    induction l as [|x l IH]; intros H; [reflexivity|]. simpl. rewrite (H x) by now left.
    f_equal. apply IH. intros y Hy. apply H. now right.
  Qed.

  Lemma filter_filter {B} (f g : B -> bool) l : filter f (filter g l) = filter (fun x => g x && f x) l.
  Proof.
    induction l as [|x l IH]; [reflexivity|]. simpl. destruct (g x); simpl; [|exact IH].
    destruct (f x); now rewrite IH.
  Qed.

  Lemma make_keys_gen items d :
    keys (fold_left (fun d x => od_set key x d) items d)
    = keys d ++ filter (fun k => negb (str_in k (keys d))) (dedup (keys items)).
  Proof.
    revert d. induction items as [|x items IH]; intros d.
    - simpl. now rewrite app_nil_r.
    - cbn [fold_left]. rewrite IH, set_keys. cbn [od_keys map dedup].
      change (map key items) with (keys items).
      cbn [filter]. destruct (mem (key x) d) eqn:M.
      + assert (In (key x) (keys d)) as I by now apply mem_spec.
        assert (str_in (key x) (keys d) = true) as -> by now apply str_in_spec. cbn [negb].
        f_equal. rewrite filter_filter. apply filter_ext. intros k.
        destruct (str_in k (keys d)) eqn:S; [now rewrite andb_false_r|]. cbn [negb].
        rewrite andb_true_r. destruct (String.eqb_spec k (key x)) as [->|]; [|reflexivity].
        apply str_in_false in S. contradiction.
      + apply mem_false in M. assert (str_in (key x) (keys d) = false) as -> by now apply str_in_false.
        cbn [negb]. rewrite <- app_assoc. simpl. f_equal. f_equal.
        rewrite filter_filter. apply filter_ext. intros k.
        unfold str_in. rewrite existsb_app. simpl. rewrite orb_false_r, negb_orb.
        apply andb_comm.
  Qed.

  Lemma make_keys items : keys (od_make key items) = dedup (keys items).
  Proof.
    unfold od_make. rewrite make_keys_gen. simpl. apply filter_true. reflexivity.
  Qed.

  Lemma dedup_in l k : In k (dedup l) <-> In k l.
  Proof.
    induction l as [|x l IH]; [reflexivity|]. simpl. rewrite filter_In, IH.
    destruct (String.eqb_spec k x) as [->|N]; simpl; [tauto|].
    split; [tauto|]. intros [->|H]; [congruence|tauto].
  Qed.

  Lemma dedup_nodup_id l : NoDup l -> dedup l = l.
  Proof.
    induction l as [|x l IH]; intros H; [reflexivity|]. inversion H as [|? ? N W]; subst.
    simpl. rewrite (IH W). f_equal. apply filter_true. intros y Hy.
    destruct (String.eqb_spec y x) as [->|]; [contradiction|reflexivity].
  Qed.

  Lemma set_fresh x d : mem (key x) d = false -> od_set key x d = d ++ [x].
  Proof.
    induction d as [|y d IH]; [reflexivity|]. simpl. intros H. apply orb_false_iff in H.
    destruct H as [H1 H2]. rewrite H1. now rewrite (IH H2).
  Qed.

  Lemma make_id d : wf d -> od_make key d = d.
  Proof.
    unfold od_make, wf. intros W.
    assert (G : forall e, NoDup (keys (e ++ d)) -> fold_left (fun d x => od_set key x d) d e = e ++ d).
    { clear W. induction d as [|x d IH]; intros e W; [simpl; now rewrite app_nil_r|].
      cbn [fold_left]. rewrite set_fresh.
      - rewrite IH; rewrite <- app_assoc; [reflexivity|exact W].
      - apply mem_false. rewrite keys_app in W. apply NoDup_remove_2 in W.
        rewrite in_app_iff in W. tauto. }
    apply (G []). exact W.
  Qed.

  (** sort *)
  Lemma insert_perm x d : Permutation (x :: d) (od_insert key x d).
  Proof.
    induction d as [|y d IH]; [reflexivity|]. simpl. destruct (String.leb _ _); [reflexivity|].
    rewrite perm_swap. now apply perm_skip.
  Qed.
  Lemma sort_perm d : Permutation d (od_sort key d).
  Proof.
    induction d as [|x d IH]; [reflexivity|]. simpl. rewrite <- insert_perm. now apply perm_skip.
  Qed.

  Lemma compare_gt_lt a b : String.compare a b = Gt -> String.compare b a = Lt.
  Proof. rewrite String.compare_antisym. destruct (String.compare b a); simpl; congruence. Qed.
  Lemma leb_total a b : String.leb a b = false -> str_le b a.
  Proof.
    unfold str_le, String.leb. destruct (String.compare a b) eqn:E; try discriminate.
    intros _. now rewrite (compare_gt_lt _ _ E).
  Qed.

  Lemma ascii_lt_trans a b c :
    Ascii.compare a b = Lt -> Ascii.compare b c = Lt -> Ascii.compare a c = Lt.
  Proof. unfold Ascii.compare. rewrite !N.compare_lt_iff. lia. Qed.

  Lemma string_lt_trans a : forall b c,
    String.compare a b = Lt -> String.compare b c = Lt -> String.compare a c = Lt.
  Proof.
    induction a as [|x a IH]; intros [|y b] [|z c]; simpl; try congruence.
    intros H1 H2.
    destruct (Ascii.compare x y) eqn:E1; try discriminate.
    - apply Ascii.compare_eq_iff in E1. subst y.
      destruct (Ascii.compare x z) eqn:E2; try discriminate; [|reflexivity].
      now apply (IH b c).
    - destruct (Ascii.compare y z) eqn:E2; try discriminate.
      + apply Ascii.compare_eq_iff in E2. subst z. now rewrite E1.
      + now rewrite (ascii_lt_trans x y z E1 E2).
  Qed.

  Lemma string_compare_refl a : String.compare a a = Eq.
  Proof. pose proof (String.compare_antisym a a) as H. destruct (String.compare a a); simpl in H; congruence. Qed.

  Lemma str_le_trans a b c : str_le a b -> str_le b c -> str_le a c.
  Proof.
    unfold str_le, String.leb.
    destruct (String.compare a b) eqn:E1; destruct (String.compare b c) eqn:E2; try discriminate; intros _ _.
    - apply String.compare_eq_iff in E1, E2. subst. now rewrite string_compare_refl.
    - apply String.compare_eq_iff in E1. subst. now rewrite E2.
    - apply String.compare_eq_iff in E2. subst. now rewrite E1.
    - now rewrite (string_lt_trans a b c E1 E2).
  Qed.

  Lemma insert_sorted x d :
    StronglySorted str_le (keys d) -> StronglySorted str_le (keys (od_insert key x d)).
  Proof.
    induction d as [|y d IH]; intros S; simpl.
    - repeat constructor.
    - inversion S as [|? ? S' F]; subst. destruct (String.leb (key x) (key y)) eqn:E; simpl.
      + constructor; [exact S|]. constructor; [exact E|].
        eapply Forall_impl; [|exact F]. intros k Hk. eapply str_le_trans; [exact E|exact Hk].
      + constructor; [now apply IH|].
        assert (P : Permutation (key x :: keys d) (keys (od_insert key x d)))
          by exact (Permutation_map key (insert_perm x d)).
        eapply Permutation_Forall; [exact P|]. constructor; [now apply leb_total|exact F].
  Qed.

  Lemma sort_sorted d : StronglySorted str_le (keys (od_sort key d)).
  Proof. induction d as [|x d IH]; [constructor|]. simpl. now apply insert_sorted. Qed.

  Lemma wf_perm d e : Permutation d e -> wf d -> wf e.
  Proof. intros P. unfold wf. apply Permutation_NoDup. now apply Permutation_map. Qed.

  Lemma get_perm d e k : wf d -> Permutation d e -> get k e = get k d.
  Proof.
    intros W P. pose proof (wf_perm _ _ P W) as W'.
    destruct (get k d) as [x|] eqn:E.
    - apply get_some in E. destruct E as [I <-]. apply get_in; [exact W'|].
      now apply (Permutation_in _ P).
    - apply get_none in E. apply get_none. intros I. apply E.
      apply Permutation_sym in P. exact (Permutation_in _ (Permutation_map key P) I).
  Qed.

  (** remove *)
  Lemma filter_keys (f : string -> bool) d : keys (filter (fun x => f (key x)) d) = filter f (keys d).
  Proof. induction d as [|x d IH]; [reflexivity|]. simpl. destruct (f (key x)); simpl; now rewrite IH. Qed.

  Lemma filter_get (f : string -> bool) d k :
    get k (filter (fun x => f (key x)) d) = if f k then get k d else None.
  Proof.
    induction d as [|x d IH]; [simpl; now destruct (f k)|]. simpl filter.
    destruct (f (key x)) eqn:F; rewrite ?get_cons, IH.
    - destruct (String.eqb_spec (key x) k) as [<-|]; [now rewrite F|reflexivity].
    - destruct (f k) eqn:G; [|reflexivity].
      destruct (String.eqb_spec (key x) k) as [<-|]; [congruence|reflexivity].
  Qed.

  (** reorder *)
  Lemma map_res_ok {B C} (f : B -> res C) l r :
    map_res f l = Ok r -> Forall2 (fun b c => f b = Ok c) l r.
  Proof.
    revert r. induction l as [|b l IH]; simpl; intros r H; [injection H as <-; constructor|].
    destruct (f b) eqn:E; [|discriminate]. cbn [bind] in H.
    destruct (map_res f l) eqn:E2; [|discriminate]. cbn [bind] in H. injection H as <-.
    constructor; [exact E|now apply IH].
  Qed.
  Lemma map_res_err {B C} (f : B -> res C) l e :
    map_res f l = Err e -> exists b, In b l /\ f b = Err e.
  Proof.
    induction l as [|b l IH]; simpl; intros H; [discriminate|].
    destruct (f b) eqn:E.
    - cbn [bind] in H. destruct (map_res f l) eqn:E2; [discriminate|]. cbn [bind] in H.
      injection H as ->. destruct (IH eq_refl) as [b' [I F]]. eauto.
    - cbn [bind] in H. injection H as ->. eauto.
  Qed.

  Definition look (d : list A) (k : string) : res A :=
    match get k d with Some x => Ok x | None => Err "KeyError" end.

  Lemma look_ok d k x : look d k = Ok x -> get k d = Some x.
  Proof. unfold look. destruct (get k d); congruence. Qed.

  Lemma reorder_items_keys d ks items :
    Forall2 (fun k x => look d k = Ok x) ks items -> keys items = ks.
  Proof.
    induction 1 as [|k x ks items H F IH]; [reflexivity|]. simpl. f_equal; [|exact IH].
    apply look_ok in H. now apply get_some in H.
  Qed.

  Lemma reorder_items_get d ks items k :
    Forall2 (fun k x => look d k = Ok x) ks items ->
    get k items = if str_in k ks then get k d else None.
  Proof.
    induction 1 as [|j x ks items H F IH]; [reflexivity|].
    rewrite get_cons, IH. apply look_ok in H. pose proof (get_some _ _ _ H) as [_ Kx].
    unfold str_in. simpl. rewrite Kx. rewrite (String.eqb_sym k j).
    destruct (String.eqb_spec j k) as [->|]; [now rewrite H|reflexivity].
  Qed.

  Lemma Forall2_rev {B C} (R : B -> C -> Prop) l m : Forall2 R l m -> Forall2 R (rev l) (rev m).
  Proof.
    induction 1 as [|b c l m H F IH]; [constructor|]. simpl. apply Forall2_app; [exact IH|].
    constructor; [exact H|constructor].
  Qed.

  Lemma str_in_rev k l : str_in k (rev l) = str_in k l.
  Proof.
    destruct (str_in k l) eqn:E.
    - apply str_in_spec. rewrite <- in_rev. now apply str_in_spec.
    - apply str_in_false. rewrite <- in_rev. now apply str_in_false.
  Qed.

  Lemma reorder_ok d ks d' :
    od_reorder key ks d = Ok d' ->
    keys d' = dedup ks /\ (forall k, get k d' = if str_in k ks then get k d else None)
    /\ (forall k, In k ks -> get k d <> None).
  Proof.
    unfold od_reorder. destruct (map_res _ ks) as [items|] eqn:E; [|discriminate].
    cbn [bind]. intros H. injection H as <-. apply map_res_ok in E.
    change (Forall2 (fun k x => look d k = Ok x) ks items) in E. split; [|split].
    - rewrite make_keys. now rewrite (reorder_items_keys _ _ _ E).
    - intros k. rewrite make_get. rewrite (reorder_items_get d (rev ks) (rev items) k) by now apply Forall2_rev.
      now rewrite str_in_rev.
    - intros k I. induction E as [|j x ks items H F IH]; [contradiction|].
      destruct I as [->|I]; [|now apply IH]. apply look_ok in H. congruence.
  Qed.

  Lemma reorder_err d ks e :
    od_reorder key ks d = Err e -> e = "KeyError"%string /\ exists k, In k ks /\ get k d = None.
  Proof.
    unfold od_reorder. destruct (map_res _ ks) as [items|e'] eqn:E; [discriminate|].
    cbn [bind]. intros H. injection H as <-. apply map_res_err in E. destruct E as [k [I H]].
    destruct (get k d) eqn:G; [discriminate|]. injection H as <-. eauto.
  Qed.

  (** the invariant and the refinement *)
  Lemma run_wf d o : wf d -> wf (od_run key d o).
  Proof.
    intros W. unfold od_run. destruct o as [x|k| |ks]; cbn [od_step].
    - unfold od_add. destruct (mem (key x) d) eqn:M; [exact W|].
      unfold wf. rewrite keys_app. apply nodup_snoc; [exact W|]. now apply mem_false.
    - unfold od_remove. destruct (mem k d); [|exact W].
      unfold wf. rewrite (filter_keys (fun j => negb (String.eqb j k))). now apply NoDup_filter.
    - exact (wf_perm _ _ (sort_perm d) W).
    - destruct (od_reorder key ks d) as [d'|] eqn:E; [|exact W].
      unfold od_reorder in E. destruct (map_res _ ks); [|discriminate]. injection E as <-.
      apply make_wf.
  Qed.

  Definition am_of (d : list A) : amap A := {| am_keys := keys d; am_val := fun k => get k d |}.

  Lemma run_refines d o :
    wf d -> exists ok, spec_step key (am_of d) o (am_of (od_run key d o)) ok
                       /\ (ok = is_ok (od_step key d o)).
  Proof.
    intros W. unfold od_run. destruct o as [x|k| |ks]; cbn [od_step].
    - unfold od_add. rewrite mem_get. destruct (get (key x) d) as [y|] eqn:G.
      + exists false. split; [|reflexivity]. apply sp_add_dup. cbn. congruence.
      + exists true. split; [|reflexivity]. apply sp_add; cbn.
        * exact G.
        * apply keys_app.
        * intros k. rewrite get_app. cbn. rewrite (String.eqb_sym k).
          destruct (String.eqb_spec (key x) k) as [<-|]; [now rewrite G|].
          now destruct (get k d).
    - unfold od_remove. rewrite mem_get. destruct (get k d) as [y|] eqn:G.
      + exists true. split; [|reflexivity]. apply sp_remove; cbn.
        * congruence.
        * apply (filter_keys (fun j => negb (String.eqb j k))).
        * intros j. rewrite (filter_get (fun j => negb (String.eqb j k))).
          now destruct (String.eqb j k).
      + exists false. split; [|reflexivity]. now apply sp_remove_absent.
    - exists true. split; [|reflexivity]. apply sp_sort; cbn.
      + apply Permutation_map, sort_perm.
      + apply sort_sorted.
      + intros k. apply get_perm; [exact W|apply sort_perm].
    - destruct (od_reorder key ks d) as [d'|e] eqn:E.
      + exists true. split; [|reflexivity]. apply reorder_ok in E. destruct E as [E1 [E2 E3]].
        apply sp_reorder; cbn; assumption.
      + exists false. split; [|reflexivity]. apply reorder_err in E.
        destruct E as [_ [k [I G]]]. now apply sp_reorder_absent with k.
  Qed.

  Lemma am_of_wf d : wf d -> am_wf key (am_of d).
  Proof.
    intros W. split; [exact W|]. split; cbn.
    - intros k. destruct (get k d) eqn:G.
      + split; [discriminate|]. intros _. apply get_some in G. destruct G as [I <-]. now apply in_map.
      + apply get_none in G. split; [contradiction|congruence].
    - intros k x H. now apply get_some in H.
  Qed.

  Lemma history_wf items ops : wf (fold_left (od_run key) ops (od_make key items)).
  Proof.
    assert (G : forall d, wf d -> wf (fold_left (od_run key) ops d)).
    { induction ops as [|o ops IH]; intros d W; [exact W|]. simpl. apply IH. now apply run_wf. }
    apply G, make_wf.
  Qed.

  (** the whole history is simulated step by step by the abstract map *)
  Inductive spec_run : amap A -> list (od_op A) -> amap A -> Prop :=
  | sr_nil m : spec_run m [] m
  | sr_cons m o m1 ok ops m2 : spec_step key m o m1 ok -> spec_run m1 ops m2 -> spec_run m (o :: ops) m2.

  Lemma history_refines ops d :
    wf d -> spec_run (am_of d) ops (am_of (fold_left (od_run key) ops d)).
  Proof.
    revert d. induction ops as [|o ops IH]; intros d W; simpl; [constructor|].
    destruct (run_refines d o W) as [ok [S _]].
    eapply sr_cons; [exact S|]. apply IH. now apply run_wf.
  Qed.

  (** difference / intersection *)
  Lemma difference_in d e x : In x (od_difference key d e) <-> In x d /\ ~ In (key x) (keys e).
  Proof.
    unfold od_difference. rewrite filter_In. split; intros [H1 H2]; (split; [exact H1|]).
    - apply negb_true_iff in H2. now apply mem_false.
    - apply negb_true_iff. now apply mem_false.
  Qed.

  Lemma difference_wf d e : wf d -> wf (od_difference key d e).
  Proof.
    intros W. unfold wf, od_difference.
    rewrite (filter_keys (fun k => negb (mem k e))). now apply NoDup_filter.
  Qed.

  Lemma intersection_spec d e :
    od_intersection key d e
    = flat_map (fun x => match get (key x) e with Some y => [(x, y)] | None => [] end) d.
  Proof. induction d as [|x d IH]; [reflexivity|]. simpl. rewrite IH. now destruct (get (key x) e). Qed.

  Lemma intersection_in d e x y :
    In (x, y) (od_intersection key d e) <-> In x d /\ get (key x) e = Some y.
  Proof.
    rewrite intersection_spec, in_flat_map. split.
    - intros [z [I H]]. destruct (get (key z) e) eqn:G; [|contradiction].
      destruct H as [H|[]]. injection H as -> ->. now split.
    - intros [I G]. exists x. split; [exact I|]. rewrite G. now left.
  Qed.

  (** members of [d] are split by membership in [e] *)
  Lemma split_by_membership d e :
    map fst (od_intersection key d e) = filter (fun x => mem (key x) e) d
    /\ od_difference key d e = filter (fun x => negb (mem (key x) e)) d.
  Proof.
    split; [|reflexivity]. induction d as [|x d IH]; [reflexivity|]. simpl.
    rewrite mem_get. destruct (get (key x) e); simpl; now rewrite IH.
  Qed.

  (** equality *)
  Lemma eqb_refl eqA d :
    wf d -> (forall x, In x d -> eqA x x = true) -> od_eqb key eqA d d = true.
  Proof.
    intros W H. unfold od_eqb. rewrite Nat.eqb_refl. simpl. apply forallb_forall.
    intros x I. rewrite (get_in d x W I). now apply H.
  Qed.

  Lemma eqb_spec eqA d e :
    wf d -> wf e -> (forall x y, eqA x y = true -> x = y) ->
    od_eqb key eqA d e = true -> Permutation d e.
  Proof.
    intros Wd We H E. unfold od_eqb in E. apply andb_true_iff in E. destruct E as [L F].
    apply Nat.eqb_eq in L. rewrite forallb_forall in F.
    assert (N : forall l, wf l -> NoDup l) by (intros l; apply NoDup_map_inv).
    apply NoDup_Permutation_bis; [now apply N|lia|].
    intros x I. specialize (F x I). destruct (get (key x) e) as [y|] eqn:G; [|discriminate].
    apply H in F. subst y. now apply get_some in G.
  Qed.

  Lemma eqb_perm eqA d e :
    wf d -> Permutation d e -> (forall x, In x d -> eqA x x = true) -> od_eqb key eqA d e = true.
  Proof.
    intros W P H. unfold od_eqb. rewrite (Permutation_length P), Nat.eqb_refl. simpl.
    apply forallb_forall. intros x I. rewrite (get_perm d e (key x) W P), (get_in d x W I). now apply H.
  Qed.
End OD.
