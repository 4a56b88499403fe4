(** Proofs about the table queries (C47). *)
From Verif Require Import PyStr QuoteModel ObjectDict ObjectDictProofs Types Objects.
From Coq Require Import Lia Arith.
Open Scope list_scope.

Lemma single_in (c : string) cols :
  negb (Nat.ltb 1 (length cols)) && str_in c cols = true <-> cols = [c].
Proof.
  rewrite Bool.andb_true_iff, Bool.negb_true_iff, Nat.ltb_ge, str_in_spec. split.
  - intros [L I]. destruct cols as [|x [|y r]]; [destruct I| |simpl in L; lia].
    destruct I as [->|[]]. reflexivity.
  - intros ->. simpl. split; [lia|auto].
Qed.

Lemma is_unique_column_spec t c :
  is_unique_column t c = true <-> exists n, In (CUnique n [c]) (t_constraints t).
Proof.
  unfold is_unique_column. rewrite existsb_exists. split.
  - intros (k & I & E). destruct k; try discriminate. apply single_in in E. subst. eauto.
  - intros (n & I). exists (CUnique n [c]). split; [exact I|]. apply single_in. reflexivity.
Qed.

Lemma is_relation_spec t c :
  is_relation t c = true <-> exists n rt rc, In (CForeign n [c] rt rc) (t_constraints t).
Proof.
  unfold is_relation. rewrite existsb_exists. split.
  - intros (k & I & E). destruct k; try discriminate. apply single_in in E. subst. eauto.
  - intros (n & rt & rc & I). eexists. split; [exact I|]. apply single_in. reflexivity.
Qed.

Lemma find_reference_some ks c r :
  find_reference ks c = Some r <->
  exists l1 n l2, ks = l1 ++ CForeign n [c] (fst r) (snd r) :: l2
    /\ forall m rt rc, ~ In (CForeign m [c] rt rc) l1.
Proof.
  induction ks as [|k ks IH]; simpl.
  - split; [discriminate|]. intros ([|x l1] & n & l2 & E & _); discriminate.
  - assert (skip : (forall m rt rc, k <> CForeign m [c] rt rc) ->
       (find_reference ks c = Some r <-> exists l1 n l2, k :: ks = l1 ++ CForeign n [c] (fst r) (snd r) :: l2
          /\ forall m rt rc, ~ In (CForeign m [c] rt rc) l1)).
    { intros N. rewrite IH. split.
      - intros (l1 & n & l2 & -> & F). exists (k :: l1), n, l2. split; [reflexivity|].
        intros m rt rc [E|I]; [exact (N _ _ _ E)|exact (F _ _ _ I)].
      - intros ([|x l1] & n & l2 & E & F); inversion E; subst; [exfalso; eapply N; reflexivity|].
        exists l1, n, l2. split; [reflexivity|]. intros m rt rc I. apply (F m rt rc). right. exact I. }
    destruct k as [n cols|n cols rt rc|n cols refs|n cond]; try (apply skip; discriminate).
    destruct (negb (Nat.ltb 1 (length cols)) && str_in c cols) eqn:E.
    + apply single_in in E. subst. split.
      * intros [= <-]. exists [], n, ks. split; [reflexivity|]. intros ? ? ? [].
      * intros ([|x l1] & m & l2 & E & F).
        -- inversion E; subst. destruct r; reflexivity.
        -- inversion E; subst. exfalso. apply (F n rt rc). left. reflexivity.
    + apply skip. intros m u v [= -> -> -> ->].
      assert (T : negb (Nat.ltb 1 (length [c])) && str_in c [c] = true) by (apply single_in; reflexivity).
      rewrite T in E. discriminate.
Qed.

Lemma find_reference_none ks c :
  find_reference ks c = None <-> forall n rt rc, ~ In (CForeign n [c] rt rc) ks.
Proof.
  induction ks as [|k ks IH]; simpl; [split; [intros _ ? ? ? []|reflexivity]|].
  assert (skip : (forall m rt rc, k <> CForeign m [c] rt rc) ->
     (find_reference ks c = None <-> forall n rt rc, ~ (k = CForeign n [c] rt rc \/ In (CForeign n [c] rt rc) ks))).
  { intros N. rewrite IH. split; intros F n rt rc; [intros [E|I]; [exact (N _ _ _ E)|exact (F _ _ _ I)]|].
    intros I. apply (F n rt rc). right. exact I. }
  destruct k as [n cols|n cols rt rc|n cols refs|n cond]; try (apply skip; discriminate).
  destruct (negb (Nat.ltb 1 (length cols)) && str_in c cols) eqn:E.
  - apply single_in in E. subst. split; [discriminate|]. intros F. exfalso. apply (F n rt rc). left. reflexivity.
  - apply skip. intros m u v [= -> -> -> ->].
    assert (T : negb (Nat.ltb 1 (length [c])) && str_in c [c] = true) by (apply single_in; reflexivity).
    rewrite T in E. discriminate.
Qed.

Lemma get_constraint_ok t c r :
  get_constraint t c = Ok r <->
  exists l1 n l2, t_constraints t = l1 ++ CForeign n [c] (fst r) (snd r) :: l2
    /\ forall m rt rc, ~ In (CForeign m [c] rt rc) l1.
Proof.
  rewrite <- find_reference_some. unfold get_constraint.
  destruct (find_reference (t_constraints t) c); split; intros E; inversion E; reflexivity.
Qed.

Lemma get_constraint_err t c :
  is_ok (get_constraint t c) = false <-> is_relation t c = false.
Proof.
  rewrite <- Bool.not_true_iff_false with (b := is_relation t c), is_relation_spec.
  unfold get_constraint. destruct (find_reference (t_constraints t) c) eqn:E; simpl.
  - split; [discriminate|]. intros N. exfalso. apply N.
    apply find_reference_some in E. destruct E as (l1 & n & l2 & -> & _).
    exists n, (fst p), (snd p). apply in_or_app. right. left. reflexivity.
  - split; [|reflexivity]. intros _ (n & rt & rc & I).
    exact (proj1 (find_reference_none _ _) E n rt rc I).
Qed.

Lemma check_primary_ok t : is_ok (check_primary t) = true <-> exists k, t_pk t = [k].
Proof.
  unfold check_primary. destruct (t_pk t) as [|k [|k2 r]]; simpl.
  - split; [discriminate|intros [? ?]; discriminate].
  - split; [eauto|reflexivity].
  - split; [discriminate|intros [? ?]; discriminate].
Qed.

Lemma check_primary_cases t :
  (exists k, t_pk t = [k] /\ check_primary t = Ok tt) \/
  ((forall k, t_pk t <> [k]) /\ check_primary t = Err "KeyError").
Proof.
  unfold check_primary. destruct (t_pk t) as [|k [|k2 r]].
  - right. split; [discriminate|reflexivity].
  - left. eauto.
  - right. split; [discriminate|reflexivity].
Qed.

Lemma is_primary_column_ok t c b :
  is_primary_column t c = Ok b <-> exists k, t_pk t = [k] /\ (b = true <-> c = k).
Proof.
  unfold is_primary_column. destruct (check_primary_cases t) as [(k & E & ->)|(N & ->)]; simpl.
  - rewrite E. split.
    + intros [= <-]. exists k. split; [reflexivity|].
      change (str_in c [k] = true <-> c = k). rewrite str_in_spec. simpl. split; [intros [->|[]]; reflexivity|auto].
    + intros (k' & [= <-] & H). f_equal. destruct b.
      * apply str_in_spec. left. symmetry. apply H. reflexivity.
      * apply str_in_false. intros [->|[]]. assert (false = true) by (apply H; reflexivity). discriminate.
  - split; [discriminate|]. intros (k & E & _). exfalso. exact (N _ E).
Qed.

Lemma is_primary_column_err t c :
  is_ok (is_primary_column t c) = false <-> forall k, t_pk t <> [k].
Proof.
  unfold is_primary_column. destruct (check_primary_cases t) as [(k & E & ->)|(N & ->)]; simpl.
  - split; [discriminate|]. intros N. exfalso. exact (N _ E).
  - split; auto.
Qed.

Lemma is_lookup_column_ok t c b :
  is_lookup_column t c = Ok b <->
  exists k, t_pk t = [k] /\ (b = true <-> c = k \/ exists n, In (CUnique n [c]) (t_constraints t)).
Proof.
  unfold is_lookup_column. destruct (is_primary_column t c) as [p|e] eqn:E; simpl.
  - apply is_primary_column_ok in E. destruct E as (k & Ek & H).
    pose proof (is_unique_column_spec t c) as U. split.
    + intros [= <-]. exists k. split; [exact Ek|]. rewrite Bool.orb_true_iff, H, U. tauto.
    + intros (k' & Ek' & H'). rewrite Ek in Ek'. injection Ek' as <-. f_equal.
      apply Bool.eq_true_iff_eq. rewrite Bool.orb_true_iff, H, U. tauto.
  - split; [discriminate|]. intros (k & Ek & _).
    assert (X : is_ok (is_primary_column t c) = false) by (rewrite E; reflexivity).
    exfalso. exact (proj1 (is_primary_column_err _ _) X _ Ek).
Qed.

Lemma find_name_single (k : string) cs c :
  NoDup (map c_name cs) ->
  (find (fun c => str_in (c_name c) [k]) cs = Some c <-> In c cs /\ c_name c = k).
Proof.
  intros ND. induction cs as [|x cs IH]; simpl; [split; [discriminate|intros [[] _]]|].
  inversion ND as [|? ? NI ND']; subst. rewrite Bool.orb_false_r.
  destruct (String.eqb (c_name x) k) eqn:E.
  - apply String.eqb_eq in E. split.
    + intros [= <-]. auto.
    + intros [[<-|I] N]; [reflexivity|]. exfalso. apply NI. rewrite E, <- N. apply in_map. exact I.
  - apply String.eqb_neq in E. simpl in IH. rewrite (IH ND'). split; [intros [I N]; auto|].
    intros [[<-|I] N]; [contradiction|auto].
Qed.

Lemma get_primary_column_ok t c :
  NoDup (map c_name (t_columns t)) ->
  (get_primary_column t = Ok c <-> In c (t_columns t) /\ t_pk t = [c_name c]).
Proof.
  intros ND. unfold get_primary_column. destruct (check_primary_cases t) as [(k & E & ->)|(N & ->)]; simpl.
  - rewrite E. pose proof (find_name_single k _ c ND) as F.
    destruct (find (fun c0 => str_in (c_name c0) [k]) (t_columns t)) as [c'|] eqn:Ef.
    + split.
      * intros [= ->]. destruct (proj1 F eq_refl) as [I ->]. auto.
      * intros [I [= ->]]. f_equal. assert (X : Some c' = Some c) by (apply F; auto). injection X as ->. reflexivity.
    + split; [discriminate|]. intros [I [= ->]]. assert (X : None = Some c) by (apply F; auto). discriminate.
  - split; [discriminate|]. intros [_ E]. exfalso. exact (N _ E).
Qed.

Lemma get_primary_column_err t :
  is_ok (get_primary_column t) = false <->
  forall k, t_pk t = [k] -> ~ In k (map c_name (t_columns t)).
Proof.
  unfold get_primary_column. destruct (check_primary_cases t) as [(k & E & ->)|(N & ->)]; simpl.
  - rewrite E. destruct (find _ (t_columns t)) as [c|] eqn:Ef.
    + apply find_some in Ef. destruct Ef as [I Hc]. apply str_in_spec in Hc.
      split; [discriminate|]. intros F. exfalso. apply (F k eq_refl). destruct Hc as [->|[]].
      apply in_map. exact I.
    + split; [|reflexivity]. intros _ k' [= <-] I. apply in_map_iff in I. destruct I as (c & Ec & I).
      pose proof (find_none _ _ Ef _ I) as X. simpl in X. rewrite Ec, String.eqb_refl in X. discriminate.
  - split; [|reflexivity]. intros _ k E. exfalso. exact (N _ E).
Qed.

(** order-preserving selection *)
Inductive subseq {A} : list A -> list A -> Prop :=
| subseq_nil : subseq [] []
| subseq_take x l m : subseq l m -> subseq (x :: l) (x :: m)
| subseq_skip x l m : subseq l m -> subseq l (x :: m).

Lemma filter_subseq {A} (f : A -> bool) l : subseq (filter f l) l.
Proof. induction l as [|x l IH]; simpl; [constructor|]. destruct (f x); constructor; exact IH. Qed.

Lemma get_columns_all t : get_columns t None = Ok (t_columns t).
Proof. reflexivity. Qed.

Lemma get_columns_named t ns cs :
  NoDup (map c_name (t_columns t)) ->
  (get_columns t (Some ns) = Ok cs <-> map c_name cs = ns /\ forall c, In c cs -> In c (t_columns t)).
Proof.
  intros ND. simpl. revert cs. induction ns as [|n ns IH]; intros cs; simpl.
  - split.
    + intros [= <-]. split; [reflexivity|intros ? []].
    + intros [E _]. destruct cs; [reflexivity|discriminate].
  - destruct (od_get c_name n (t_columns t)) as [c|] eqn:G; simpl.
    + pose proof G as G'. apply get_some in G'. destruct G' as [I En].
      destruct (map_res _ ns) as [cs'|e]; simpl.
      * split.
        -- intros [= <-]. destruct (proj1 (IH cs') eq_refl) as [Em F]. simpl. split; [congruence|].
           intros d [<-|Id]; auto.
        -- intros [Em F]. destruct cs as [|d ds]; [discriminate|]. injection Em as Ed Em.
           assert (d = c) as ->.
           { assert (Some d = Some c) as [=]; [|assumption]. rewrite <- G, <- Ed. symmetry.
             apply get_in; [exact ND|]. apply F. left. reflexivity. }
           f_equal. f_equal. assert (X : Ok cs' = Ok ds) by (apply IH; split; [exact Em|intros x Ix; apply F; right; exact Ix]).
           injection X as ->. reflexivity.
      * split; [discriminate|]. intros [Em F]. destruct cs as [|d ds]; [discriminate|]. injection Em as Ed Em.
        assert (X : Err e = Ok ds) by (apply IH; split; [exact Em|intros x Ix; apply F; right; exact Ix]). discriminate.
    + split; [discriminate|]. intros [Em F]. destruct cs as [|d ds]; [discriminate|]. injection Em as Ed Em.
      assert (X : od_get c_name (c_name d) (t_columns t) = Some d).
      { apply get_in; [exact ND|]. apply F. left. reflexivity. }
      rewrite Ed in X. congruence.
Qed.

Lemma get_columns_err t ns :
  is_ok (get_columns t (Some ns)) = false <-> exists n, In n ns /\ ~ In n (map c_name (t_columns t)).
Proof.
  simpl. induction ns as [|n ns IH]; simpl; [split; [discriminate|intros (? & [] & _)]|].
  destruct (od_get c_name n (t_columns t)) as [c|] eqn:G; simpl.
  - apply get_some in G. destruct G as [I En].
    assert (X : is_ok (do ys <- map_res (fun n0 => match od_get c_name n0 (t_columns t) with Some c0 => Ok c0 | None => Err "ValueError" end) ns; Ok (c :: ys))
       = is_ok (map_res (fun n0 => match od_get c_name n0 (t_columns t) with Some c0 => Ok c0 | None => Err "ValueError" end) ns)).
    { destruct (map_res _ ns); reflexivity. }
    rewrite X, IH. split; intros (m & Im & Hm); [exists m; auto|].
    destruct Im as [<-|Im]; [|exists m; auto]. exfalso. apply Hm. rewrite <- En. apply in_map. exact I.
  - split; [|reflexivity]. intros _. exists n. split; [auto|]. apply get_none in G. exact G.
Qed.

Lemma get_value_columns_ok t ns vs :
  get_value_columns t ns = Ok vs ->
  exists cs, get_columns t ns = Ok cs /\ subseq vs cs
    /\ forall c, In c vs <-> In c cs /\ ~ In (c_name c) (t_pk t) /\ c_identity c = false.
Proof.
  unfold get_value_columns. destruct (get_columns t ns) as [cs|e]; simpl; [|discriminate].
  intros [= <-]. exists cs. split; [reflexivity|]. split; [apply filter_subseq|].
  intros c. rewrite filter_In, Bool.andb_true_iff, !Bool.negb_true_iff, str_in_false. tauto.
Qed.

Lemma get_value_columns_err t ns :
  is_ok (get_value_columns t ns) = is_ok (get_columns t ns).
Proof. unfold get_value_columns. destruct (get_columns t ns); reflexivity. Qed.

Definition lk_go (t : table) := (fix go (cs : list column) : res bool :=
          match cs with
          | [] => Ok true
          | c :: r => do p <- is_primary_column t (c_name c);
                      if p then go r
                      else if is_unique_column t (c_name c) then go r else Ok false
          end).
Lemma lk_go_ok t k cs : t_pk t = [k] ->
  exists b, lk_go t cs = Ok b /\
  (b = true <-> forall c, In c cs -> c_name c = k \/ exists n, In (CUnique n [c_name c]) (t_constraints t)).
Proof.
  intros E. induction cs as [|c cs (b & Eb & IH)]; simpl.
  - exists true. split; [reflexivity|]. split; [intros _ ? []|reflexivity].
  - destruct (is_primary_column t (c_name c)) as [p|e] eqn:P; simpl.
    + apply is_primary_column_ok in P. destruct P as (k' & Ek & Hp). rewrite E in Ek. injection Ek as <-.
      destruct p.
      * exists b. split; [exact Eb|]. rewrite IH. split.
        -- intros F d [<-|I]; [left; apply Hp; reflexivity|auto].
        -- intros F d I. apply F. auto.
      * destruct (is_unique_column t (c_name c)) eqn:U.
        -- exists b. split; [exact Eb|]. rewrite IH. apply is_unique_column_spec in U. split.
           ++ intros F d [<-|I]; auto.
           ++ intros F d I. apply F. auto.
        -- exists false. split; [reflexivity|]. split; [discriminate|]. intros F.
           destruct (F c (or_introl eq_refl)) as [X|X].
           ++ apply Hp in X. discriminate.
           ++ apply is_unique_column_spec in X. congruence.
    + assert (X : is_ok (is_primary_column t (c_name c)) = false) by (rewrite P; reflexivity).
      exfalso. exact (proj1 (is_primary_column_err _ _) X _ E).
Qed.

Lemma is_lookup_table_true t :
  is_lookup_table t = Ok true <->
  length (t_columns t) = 2 /\ exists k, t_pk t = [k] /\
    forall c, In c (t_columns t) -> c_name c = k \/ exists n, In (CUnique n [c_name c]) (t_constraints t).
Proof.
  unfold is_lookup_table. fold (lk_go t). destruct (Nat.eqb (length (t_columns t)) 2) eqn:L; simpl.
  - apply Nat.eqb_eq in L. destruct (check_primary_cases t) as [(k & E & _)|(N & C)].
    + destruct (lk_go_ok t k (t_columns t) E) as (b & -> & H). split.
      * intros [= ->]. split; [exact L|]. exists k. split; [exact E|]. apply H. reflexivity.
      * intros (_ & k' & E' & F). rewrite E in E'. injection E' as <-. f_equal. apply H. exact F.
    + split.
      * destruct (t_columns t) as [|c cs]; [discriminate|]. simpl.
        unfold is_primary_column. rewrite C. discriminate.
      * intros (_ & k & E & _). exfalso. exact (N _ E).
  - apply Nat.eqb_neq in L. split; [discriminate|]. intros [X _]. contradiction.
Qed.

Lemma is_lookup_table_err t :
  is_ok (is_lookup_table t) = false <-> length (t_columns t) = 2 /\ forall k, t_pk t <> [k].
Proof.
  unfold is_lookup_table. fold (lk_go t). destruct (Nat.eqb (length (t_columns t)) 2) eqn:L; simpl.
  - apply Nat.eqb_eq in L. destruct (check_primary_cases t) as [(k & E & _)|(N & C)].
    + destruct (lk_go_ok t k (t_columns t) E) as (b & -> & H). split; [discriminate|].
      intros [_ N]. exfalso. exact (N _ E).
    + destruct (t_columns t) as [|c cs]; [discriminate|]. simpl. unfold is_primary_column. rewrite C. simpl.
      split; auto.
  - apply Nat.eqb_neq in L. split; [discriminate|]. intros [X _]. contradiction.
Qed.
