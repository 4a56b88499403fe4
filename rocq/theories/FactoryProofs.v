From Verif Require Import PyStr QuoteModel Types Objects EqProofs Factory FactorySpec.
From Coq Require Import Permutation.
Open Scope list_scope.

Section Group.
  Context {A : Type}.
  Definition members (rows : list (string * A)) (n : string) : list A := map snd (filter (fun r => String.eqb (fst r) n) rows).
  Definition g_add (m : list (string * list A)) (r : string * A) : list (string * list A) :=
    match find_entry (fst r) m with
    | Some cs => set_entry (fst r) (cs ++ [snd r]) m
    | None => set_entry (fst r) [snd r] m
    end.
  Definition group (rows : list (string * A)) := fold_left g_add rows [].

  Lemma find_in (m : list (string * list A)) n cs : NoDup (map fst m) -> (find_entry n m = Some cs <-> In (n, cs) m).
  Proof.
    intros ND. induction m as [|[k a] m IH]; cbn [find_entry]; [split; [discriminate|intros []]|]. inversion ND as [|? ? NI ND']; subst.
    destruct (String.eqb_spec k n) as [->|N].
    - split; [intros [= ->]; now left|]. intros [[= ->]|I]; [reflexivity|]. exfalso. apply NI. apply (in_map fst) in I. exact I.
    - rewrite (IH ND'). split; [intros I; now right|]. intros [[= -> _]|I]; [contradiction|exact I].
  Qed.
  Lemma find_none (m : list (string * list A)) n : find_entry n m = None <-> ~ In n (map fst m).
  Proof.
    induction m as [|[k a] m IH]; cbn; [tauto|]. destruct (String.eqb_spec k n) as [->|N]; [split; [discriminate|tauto]|]. rewrite IH. tauto.
  Qed.
  Lemma set_fst (m : list (string * list A)) n cs : In n (map fst m) -> map fst (set_entry n cs m) = map fst m.
  Proof. induction m as [|[k a] m IH]; cbn; [intros []|]. destruct (String.eqb_spec k n) as [->|N]; [reflexivity|]. intros [E|I]; [contradiction|]. cbn. now rewrite IH. Qed.
  Lemma set_new (m : list (string * list A)) n cs : ~ In n (map fst m) -> set_entry n cs m = m ++ [(n, cs)].
  Proof. induction m as [|[k a] m IH]; cbn; [reflexivity|]. intros N. destruct (String.eqb_spec k n) as [->|N']; [tauto|]. rewrite IH; tauto. Qed.
  Lemma set_in (m : list (string * list A)) n cs n' cs' : NoDup (map fst m) -> In n (map fst m) ->
    (In (n', cs') (set_entry n cs m) <-> (n' = n /\ cs' = cs) \/ n' <> n /\ In (n', cs') m).
  Proof.
    intros ND. induction m as [|[k a] m IH]; cbn; [intros []|]. inversion ND as [|? ? NI ND']; subst.
    destruct (String.eqb_spec k n) as [->|N].
    - intros _. cbn. split.
      + intros [[= -> ->]|I]; [now left|]. right. split; [|now right]. intros ->. apply NI. apply (in_map fst) in I. exact I.
      + intros [[-> ->]|[NE [[= -> _]|I]]]; [now left|contradiction|now right].
    - intros [E|I]; [contradiction|]. cbn. rewrite (IH ND' I). split.
      + intros [[= -> ->]|[X|[NE X]]]; [right; split; [exact N|now left]|now left|right; split; [exact NE|now right]].
      + intros [X|[NE [[= -> ->]|X]]]; [right; now left|now left|right; right; auto].
  Qed.

  Lemma group_inv rows : NoDup (map fst (group rows)) /\
    (forall n, In n (map fst (group rows)) <-> In n (map fst rows)) /\
    (forall n cs, In (n, cs) (group rows) -> cs = members rows n).
  Proof.
    induction rows as [|r rows IH] using rev_ind; [split; [constructor|split; [tauto|intros ? ? []]]|].
    unfold group in *. rewrite fold_left_app. cbn [fold_left]. set (m := fold_left g_add rows []) in *. destruct IH as (ND & K & V).
    assert (MB : forall n, members (rows ++ [r]) n = members rows n ++ (if String.eqb (fst r) n then [snd r] else [])).
    { intros n. unfold members. rewrite filter_app, map_app. cbn [filter]. destruct (String.eqb (fst r) n); reflexivity. }
    unfold g_add. destruct (find_entry (fst r) m) as [cs|] eqn:F.
    - pose proof (proj1 (find_in m _ _ ND) F) as I. pose proof (in_map fst _ _ I) as IN. cbn in IN.
      split; [now rewrite set_fst|]. split.
      + intros n. rewrite set_fst by exact IN. rewrite map_app, in_app_iff, K. cbn. split; [tauto|]. intros [X|[<-|[]]]; [exact X|]. apply K. exact IN.
      + intros n cs' J. apply set_in in J; [|exact ND|exact IN]. rewrite MB. destruct J as [[-> ->]|[NE J]].
        * rewrite String.eqb_refl. f_equal. exact (V _ _ I).
        * destruct (String.eqb_spec (fst r) n) as [E|_]; [congruence|]. rewrite app_nil_r. exact (V _ _ J).
    - apply find_none in F. rewrite set_new by exact F. split; [|split].
      + rewrite map_app. cbn. apply NoDup_Add with (a := fst r) (l := map fst m); [|auto]. pose proof (Add_app (fst r) (map fst m) []) as X. rewrite app_nil_r in X. exact X.
      + intros n. rewrite !map_app, !in_app_iff, K. cbn. tauto.
      + intros n cs J. rewrite MB. apply in_app_or in J. destruct J as [J|[[= <- <-]|[]]].
        * destruct (String.eqb_spec (fst r) n) as [E|_]; [|rewrite app_nil_r; exact (V _ _ J)]. exfalso. apply F. apply (in_map fst) in J. cbn in J. rewrite E. exact J.
        * rewrite String.eqb_refl. assert (X : members rows (fst r) = []); [|now rewrite X].
          unfold members. rewrite K in F. clear - F. induction rows as [|x rows IH]; [reflexivity|]. cbn in *. destruct (String.eqb_spec (fst x) (fst r)); [tauto|]. apply IH. tauto.
  Qed.
  Lemma members_nil rows n : In n (map fst rows) -> members rows n <> [].
  Proof.
    unfold members. induction rows as [|r rows IH]; cbn; [intros []|]. intros [E|I]; [rewrite E, String.eqb_refl; discriminate|].
    destruct (String.eqb (fst r) n); [discriminate|exact (IH I)].
  Qed.
  Lemma group_tells rows groups : tells rows groups -> Permutation (group rows) groups.
  Proof.
    intros (ND & M & R). destruct (group_inv rows) as (ND' & K & V).
    apply NoDup_Permutation; [apply (NoDup_map_inv fst); exact ND'|apply (NoDup_map_inv fst); exact ND|].
    assert (E : forall n, In n (map fst rows) <-> In n (map fst groups)).
    { intros n. split.
      - intros I. apply in_map_iff in I. destruct I as (r & <- & I). exact (R r I).
      - intros I. apply in_map_iff in I. destruct I as ([n' cs] & <- & I). destruct (M _ _ I) as [NE EQ]. cbn.
        destruct (filter (fun r => String.eqb (fst r) n') rows) as [|r l] eqn:F; [cbn in EQ; congruence|].
        assert (J : In r (filter (fun r => String.eqb (fst r) n') rows)) by (rewrite F; now left). apply filter_In in J. destruct J as [J E]. apply String.eqb_eq in E. rewrite <- E. apply in_map. exact J. }
    intros [n cs]. split; intros I.
    - pose proof (V _ _ I) as ->. apply (in_map fst) in I. cbn in I. apply K, E in I. apply in_map_iff in I. destruct I as ([n' cs] & X & I). cbn in X. subst n'.
      destruct (M _ _ I) as [_ EQ]. unfold members. rewrite EQ. exact I.
    - destruct (M _ _ I) as [_ EQ]. apply (in_map fst) in I. cbn in I. apply E, K in I. apply in_map_iff in I. destruct I as ([n' cs'] & X & I). cbn in X. subst n'.
      rewrite (V _ _ I) in I. unfold members in I. rewrite EQ in I. exact I.
  Qed.
  Lemma tells_group rows : tells rows (group rows).
  Proof.
    destruct (group_inv rows) as (ND & K & V). split; [exact ND|]. split.
    - intros n cs I. pose proof (V _ _ I) as ->. split; [|reflexivity]. apply members_nil, K. apply (in_map fst) in I. exact I.
    - intros r I. apply K. apply in_map. exact I.
  Qed.
End Group.

Lemma uf_group rows : uf_run rows = map (fun e => CUnique (fst e) (snd e)) (group rows).
Proof. reflexivity. Qed.

(** ** Foreign keys *)
Section Strip.
  Definition strip (m : ff) : list (string * list (string * string)) := map (fun e => (fst e, snd (snd e))) m.
  Lemma strip_find m n : find_entry n (strip m) = match find_entry n m with Some (_, ps) => Some ps | None => None end.
  Proof. induction m as [|[k [q ps]] m IH]; cbn; [reflexivity|]. destruct (String.eqb k n); [reflexivity|exact IH]. Qed.
  Lemma strip_set m n q ps : strip (set_entry n (q, ps) m) = set_entry n ps (strip m).
  Proof. induction m as [|[k [q' ps']] m IH]; cbn; [reflexivity|]. destruct (String.eqb k n); cbn; [reflexivity|]. f_equal. exact IH. Qed.
  Lemma strip_fst m : map fst (strip m) = map fst m.
  Proof. unfold strip. rewrite map_map. reflexivity. Qed.
End Strip.

Lemma find_set_same {A} (m : list (string * A)) n a : find_entry n (set_entry n a m) = Some a.
Proof. induction m as [|[k b] m IH]; cbn; [now rewrite String.eqb_refl|]. destruct (String.eqb k n) eqn:E; cbn; rewrite E; [reflexivity|exact IH]. Qed.
Lemma find_set_other {A} (m : list (string * A)) n n' a : n' <> n -> find_entry n' (set_entry n a m) = find_entry n' m.
Proof.
  intros N. induction m as [|[k b] m IH]; cbn; [destruct (String.eqb_spec n n'); congruence|].
  destruct (String.eqb_spec k n) as [->|]; cbn; [destruct (String.eqb_spec n n'); [congruence|reflexivity]|]. now rewrite IH.
Qed.

(** the links remember the target of the rows seen so far *)
Definition targets (m : ff) (rows : list frow) : Prop :=
  (forall n q ps, find_entry n m = Some (q, ps) -> exists r, In r rows /\ f_name r = n /\ f_table r = q) /\
  (forall r, In r rows -> exists ps, find_entry (f_name r) m = Some (f_table r, ps)).

Lemma ff_step m rows r : targets m rows ->
  (exists m', ff_add m r = Ok m' /\ targets m' (rows ++ [r]) /\ strip m' = g_add (strip m) (as_row r)) /\ (forall s, In s rows -> f_name s = f_name r -> f_table s = f_table r) \/
  ff_add m r = Err "ValueError" /\ exists s, In s rows /\ f_name s = f_name r /\ f_table s <> f_table r.
Proof.
  intros (T1 & T2). unfold ff_add, g_add. cbn [as_row fst snd]. rewrite strip_find.
  destruct (find_entry (f_name r) m) as [[q ps]|] eqn:F.
  - destruct (T1 _ _ _ F) as (s & Is & Es & Eq). destruct (qid_eqb (f_table r) q) eqn:E.
    + apply qid_eqb_eq in E. left. split.
      * eexists. split; [reflexivity|]. split; [|apply strip_set]. split.
        -- intros n q' ps' X. destruct (string_dec n (f_name r)) as [->|N].
           ++ rewrite find_set_same in X. injection X as <- _. exists r. split; [apply in_or_app; right; now left|]. split; [reflexivity|exact E].
           ++ rewrite find_set_other in X by exact N. destruct (T1 _ _ _ X) as (s' & I & A). exists s'. split; [apply in_or_app; now left|exact A].
        -- intros s' I. destruct (string_dec (f_name s') (f_name r)) as [EN|N].
           ++ rewrite EN, find_set_same. eexists. f_equal. f_equal. apply in_app_or in I. destruct I as [I|[<-|[]]]; [|now rewrite E].
              destruct (T2 _ I) as (ps' & X). rewrite EN, F in X. injection X as -> _. reflexivity.
           ++ rewrite find_set_other by exact N. apply in_app_or in I. destruct I as [I|[<-|[]]]; [exact (T2 _ I)|contradiction].
      * intros s' I EN. destruct (T2 _ I) as (ps' & X). rewrite EN, F in X. injection X as <- _. congruence.
    + right. split; [reflexivity|]. exists s. split; [exact Is|]. split; [exact Es|]. intros X. rewrite Eq in X. subst q.
      assert (Y : qid_eqb (f_table r) (f_table r) = true) by now apply qid_eqb_eq. congruence.
  - left. split.
    + eexists. split; [reflexivity|]. split; [|apply strip_set]. split.
      * intros n q' ps' X. destruct (string_dec n (f_name r)) as [->|N].
        -- rewrite find_set_same in X. injection X as <- _. exists r. split; [apply in_or_app; right; now left|]. auto.
        -- rewrite find_set_other in X by exact N. destruct (T1 _ _ _ X) as (s' & I & A). exists s'. split; [apply in_or_app; now left|exact A].
      * intros s' I. destruct (string_dec (f_name s') (f_name r)) as [EN|N].
        -- rewrite EN, find_set_same. apply in_app_or in I. destruct I as [I|[<-|[]]]; [|eauto].
           destruct (T2 _ I) as (ps' & X). rewrite EN, F in X. discriminate X.
        -- rewrite find_set_other by exact N. apply in_app_or in I. destruct I as [I|[<-|[]]]; [exact (T2 _ I)|contradiction].
    + intros s' I EN. destruct (T2 _ I) as (ps' & X). rewrite EN, F in X. discriminate X.
Qed.
Lemma ff_all_spec rows : forall m seen, targets m seen -> one_target seen ->
  (one_target (seen ++ rows) -> exists m', ff_all m rows = Ok m' /\ targets m' (seen ++ rows) /\ strip m' = fold_left g_add (map as_row rows) (strip m)) /\
  (~ one_target (seen ++ rows) -> ff_all m rows = Err "ValueError").
Proof.
  induction rows as [|r rows IH]; intros m seen T O; cbn [ff_all map fold_left].
  - rewrite app_nil_r. split; [intros _; exists m; auto|]. intros N. contradiction.
  - destruct (ff_step m seen r T) as [[(m' & E & T' & S') C]|[E (s & I & EN & NT)]].
    + rewrite E. cbn [bind]. assert (O' : one_target (seen ++ [r])).
      { intros a b Ia Ib EN. apply in_app_or in Ia. apply in_app_or in Ib. destruct Ia as [Ia|[<-|[]]], Ib as [Ib|[<-|[]]].
        - exact (O a b Ia Ib EN).
        - exact (C a Ia EN).
        - symmetry. exact (C b Ib (eq_sym EN)).
        - reflexivity. }
      destruct (IH m' (seen ++ [r]) T' O') as [A B]. rewrite <- app_assoc in A, B. cbn [app] in A, B. rewrite <- S'. split; assumption.
    + rewrite E. cbn [bind]. split; [|reflexivity]. intros X. exfalso. apply NT. apply X; [apply in_or_app; now left|apply in_or_app; right; now left|exact EN].
Qed.
Lemma ff_run_spec rows :
  (one_target rows -> exists m, ff_run rows = Ok (ff_fetch m) /\ targets m rows /\ strip m = group (map as_row rows)) /\
  (~ one_target rows -> ff_run rows = Err "ValueError").
Proof.
  destruct (ff_all_spec rows [] []) as [A B].
  - split; [intros ? ? ? X; discriminate X|intros ? []].
  - intros ? ? [].
  - cbn [app] in A, B. unfold ff_run. split.
    + intros O. destruct (A O) as (m & -> & T & S). cbn [bind]. eauto.
    + intros O. rewrite (B O). reflexivity.
Qed.
