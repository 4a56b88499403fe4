(** Merging of catalogs. *)
From Verif Require Import PyStr QuoteModel ObjectDict ObjectDictProofs Types Objects EqProofs KeySpec NoopProofs MergeSpec.
From Coq Require Import String List Bool Permutation Lia.
Import ListNotations.
Open Scope list_scope.

Section Gen.
  Context {A : Type} (key : A -> string) (mer : A -> A -> res A) (P : A -> Prop).
  Fixpoint gm (self op : list A) : res (list A) :=
    match op with
    | [] => Ok self
    | x :: r => match od_get key (key x) self with
                | Some y => do m <- mer y x; gm (od_set key m self) r
                | None => do self' <- od_add key x self; gm self' r
                end
    end.
  Definition omerge (a b : option A) : res (option A) :=
    match a, b with
    | Some y, Some x => do m <- mer y x; Ok (Some m)
    | Some y, None => Ok (Some y)
    | None, o => Ok o
    end.
  Hypothesis mer_key : forall y x m, key y = key x -> mer y x = Ok m -> key m = key y.

  Notation keys := (map key).
  Notation wf l := (NoDup (map key l)).
  Lemma add_fresh x self : od_get key (key x) self = None -> od_add key x self = Ok (self ++ [x]).
  Proof. intros G. unfold od_add. rewrite mem_get, G. reflexivity. Qed.

  (** result order *)
  Lemma gm_keys op : forall self m, wf self -> wf op -> gm self op = Ok m ->
    keys m = keys self ++ filter (fun k => negb (od_mem key k self)) (keys op) /\ wf m /\
    (forall k, omerge (od_get key k self) (od_get key k op) = Ok (od_get key k m)).
  Proof.
    induction op as [|x r IH]; intros self m Ws Wo H; simpl in H.
    - injection H as <-. simpl. rewrite app_nil_r. split; [reflexivity|]. split; [exact Ws|]. intros k. destruct (od_get key k self); reflexivity.
    - inversion Wo as [|? ? Nx Wr]; subst.
      assert (Gx : forall k, od_get key k (x :: r) = if String.eqb (key x) k then Some x else od_get key k r) by (intros; apply get_cons).
      assert (Gr : od_get key (key x) r = None) by now apply get_none.
      destruct (od_get key (key x) self) as [y|] eqn:G.
      + destruct (mer y x) as [z|] eqn:Ez; simpl in H; [|discriminate].
        destruct (get_some _ _ _ _ G) as [Iy Ky]. assert (Kz : key z = key x) by (rewrite (mer_key _ _ _ Ky Ez); exact Ky).
        destruct (IH (od_set key z self) m) as (K & W & O); [now apply set_wf|exact Wr|exact H|].
        assert (Km : keys (od_set key z self) = keys self). { pose proof (set_keys key z self) as E. unfold od_keys in E. rewrite E. rewrite mem_get, Kz, G. reflexivity. }
        split; [|split; [exact W|]].
        * rewrite K, Km. f_equal. simpl. rewrite mem_get, G. simpl. apply filter_ext. intros k. rewrite !mem_get, set_get, Kz.
          destruct (String.eqb (key x) k) eqn:Ek; [|reflexivity]. apply String.eqb_eq in Ek. subst k. rewrite G. reflexivity.
        * intros k. specialize (O k). rewrite set_get, Kz in O. rewrite Gx.
          destruct (String.eqb (key x) k) eqn:Ek; [|exact O]. apply String.eqb_eq in Ek. subst k. rewrite Gr in O. rewrite G. simpl. rewrite Ez. exact O.
      + rewrite add_fresh in H by exact G. simpl in H.
        assert (W1 : wf (self ++ [x])). { rewrite map_app. simpl. apply nodup_snoc; [exact Ws|]. now apply get_none. }
        destruct (IH (self ++ [x]) m W1 Wr H) as (K & W & O). split; [|split; [exact W|]].
        * rewrite K, map_app, <- app_assoc. simpl. f_equal. rewrite mem_get, G. simpl. f_equal.
          assert (Nr : forall k, In k (keys r) -> k <> key x) by (intros k Ik ->; auto). clear -Nr. induction (keys r) as [|k ks IHk]; [reflexivity|].
          simpl. rewrite IHk by (intros; apply Nr; now right). rewrite !mem_get, get_app. assert (Nk : k <> key x) by (apply Nr; now left).
          rewrite get_cons. apply not_eq_sym in Nk. apply String.eqb_neq in Nk. rewrite Nk. destruct (od_get key k self); reflexivity.
        * intros k. specialize (O k). rewrite get_app, get_cons in O. rewrite Gx.
          destruct (String.eqb (key x) k) eqn:Ek; [|destruct (od_get key k self); exact O]. apply String.eqb_eq in Ek. subst k. rewrite Gr, G in O. rewrite G. exact O.
  Qed.
  Lemma gm_ok op : forall self, wf self -> wf op ->
    (forall k e, omerge (od_get key k self) (od_get key k op) <> Err e) -> exists m, gm self op = Ok m.
  Proof.
    induction op as [|x r IH]; intros self Ws Wo H; [now exists self|].
    inversion Wo as [|? ? Nx Wr]; subst. simpl.
    assert (Gr : od_get key (key x) r = None) by now apply get_none.
    assert (Gx : forall k, od_get key k (x :: r) = if String.eqb (key x) k then Some x else od_get key k r) by (intros; apply get_cons).
    destruct (od_get key (key x) self) as [y|] eqn:G.
    - destruct (mer y x) as [z|e] eqn:Ez.
      2:{ exfalso. apply (H (key x) e). rewrite Gx, String.eqb_refl, G. simpl. rewrite Ez. reflexivity. }
      simpl. destruct (get_some _ _ _ _ G) as [Iy Ky]. assert (Kz : key z = key x) by (rewrite (mer_key _ _ _ Ky Ez); exact Ky).
      apply IH; [now apply set_wf|exact Wr|]. intros k e. rewrite set_get, Kz. destruct (String.eqb (key x) k) eqn:Ek.
      + apply String.eqb_eq in Ek. subst k. rewrite Gr. discriminate.
      + specialize (H k e). rewrite Gx, Ek in H. exact H.
    - rewrite add_fresh by exact G. simpl. apply IH; [|exact Wr|].
      + rewrite map_app. simpl. apply nodup_snoc; [exact Ws|]. now apply get_none.
      + intros k e. rewrite get_app, get_cons. destruct (String.eqb (key x) k) eqn:Ek.
        * apply String.eqb_eq in Ek. subst k. rewrite G, Gr. discriminate.
        * specialize (H k e). rewrite Gx, Ek in H. destruct (od_get key k self); [exact H|exact H].
  Qed.
  (** dictionaries with the same key order and lookups are the same list *)
  Lemma dict_ext l : forall m, wf l -> keys l = keys m -> (forall k, od_get key k l = od_get key k m) -> l = m.
  Proof.
    induction l as [|x l IH]; intros [|y m] W K G; try discriminate; [reflexivity|]. simpl in K. injection K as K1 K2.
    inversion W as [|? ? N W']; subst. assert (E : x = y). { specialize (G (key x)). rewrite !get_cons, K1, !String.eqb_refl in G. now injection G. } subst y. f_equal.
    apply IH; [exact W'|exact K2|]. intros k. destruct (String.eqb (key x) k) eqn:Ek.
    - apply String.eqb_eq in Ek. subst k. rewrite (proj2 (get_none key (key x) l) N). symmetry. apply get_none. unfold od_keys. rewrite <- K2. exact N.
    - specialize (G k). rewrite !get_cons, Ek in G. exact G.
  Qed.
  (** full characterization *)
  Lemma gm_spec self op m : wf self -> wf op ->
    gm self op = Ok m <->
    keys m = keys self ++ filter (fun k => negb (od_mem key k self)) (keys op) /\
    (forall k, omerge (od_get key k self) (od_get key k op) = Ok (od_get key k m)).
  Proof.
    intros Ws Wo. split.
    - intros H. destruct (gm_keys op self m Ws Wo H) as (K & _ & O). auto.
    - intros [K O]. destruct (gm_ok op self Ws Wo) as [m' H]; [intros k e E; rewrite O in E; discriminate|]. rewrite H. f_equal.
      destruct (gm_keys op self m' Ws Wo H) as (K' & W' & O'). apply dict_ext; [exact W'|congruence|]. intros k. specialize (O k). specialize (O' k). congruence.
  Qed.

  Lemma filter_app_l {B} (f : B -> bool) a b : filter f (a ++ b) = filter f a ++ filter f b.
  Proof. apply filter_app. Qed.
  Lemma filter_comp {B} (f g : B -> bool) l : filter f (filter g l) = filter (fun x => g x && f x) l.
  Proof. induction l as [|x l IH]; [reflexivity|]. simpl. destruct (g x); simpl; [destruct (f x); simpl; now rewrite IH|exact IH]. Qed.

  Hypothesis mer_P : forall y x m, P y -> P x -> mer y x = Ok m -> P m.
  Lemma gm_P op : forall self m, (forall x, In x self -> P x) -> (forall x, In x op -> P x) -> wf self -> wf op -> gm self op = Ok m -> forall x, In x m -> P x.
  Proof.
    intros self m Ps Po Ws Wo H x Ix. destruct (gm_keys op self m Ws Wo H) as (K & W & O). pose proof (get_in key m x W Ix) as G.
    specialize (O (key x)). rewrite G in O. destruct (od_get key (key x) self) as [y|] eqn:Gs.
    - apply get_some in Gs as [Iy _]. destruct (od_get key (key x) op) as [z|] eqn:Go; simpl in O.
      + apply get_some in Go as [Iz _]. destruct (mer y z) as [w|] eqn:E; simpl in O; [|discriminate]. injection O as O. subst w. eapply (mer_P y z); [apply Ps; exact Iy|apply Po; exact Iz|exact E].
      + injection O as O. subst. auto.
    - simpl in O. injection O as O. apply get_some in O as [Io _]. auto.
  Qed.

  (** associativity *)
  Hypothesis mer_assoc : forall a b c m, P a -> P b -> P c ->
    (exists ab, mer a b = Ok ab /\ mer ab c = Ok m) <-> (exists bc, mer b c = Ok bc /\ mer a bc = Ok m).
  Lemma gm_assoc a b c m : (forall x, In x a -> P x) -> (forall x, In x b -> P x) -> (forall x, In x c -> P x) -> wf a -> wf b -> wf c ->
    (exists ab, gm a b = Ok ab /\ gm ab c = Ok m) <-> (exists bc, gm b c = Ok bc /\ gm a bc = Ok m).
  Proof.
    intros Pa Pb Pc Wa Wb Wc.
    assert (Pk : forall l k x, (forall y, In y l -> P y) -> od_get key k l = Some x -> P x).
    { intros l k x H G. apply get_some in G as [I _]. auto. }
    split.
    - intros (ab & H1 & H2). destruct (gm_keys b a ab Wa Wb H1) as (K1 & W1 & O1).
      destruct (gm_keys c ab m W1 Wc H2) as (K2 & W2 & O2).
      assert (Hbc : exists bc, gm b c = Ok bc).
      { apply gm_ok; [exact Wb|exact Wc|]. intros k e E. specialize (O1 k). specialize (O2 k).
        destruct (od_get key k b) as [xb|] eqn:Gb; [|discriminate]. destruct (od_get key k c) as [xc|] eqn:Gc; [|discriminate].
        simpl in E. destruct (mer xb xc) as [w|e'] eqn:Ew; simpl in E; [discriminate|]. injection E as <-.
        destruct (od_get key k a) as [xa|] eqn:Ga; simpl in O1.
        - destruct (mer xa xb) as [z|] eqn:Ez; simpl in O1; [|discriminate]. injection O1 as O1. rewrite <- O1 in O2. simpl in O2.
          destruct (mer z xc) as [v|] eqn:Ev; simpl in O2; [|discriminate].
          destruct (proj1 (mer_assoc xa xb xc v (Pk a k xa Pa Ga) (Pk b k xb Pb Gb) (Pk c k xc Pc Gc))) as (bc & E & _); [eauto|]. congruence.
        - injection O1 as O1. rewrite <- O1 in O2. simpl in O2. rewrite Ew in O2. discriminate. }
      destruct Hbc as [bc H3]. exists bc. split; [exact H3|].
      destruct (gm_keys c b bc Wb Wc H3) as (K3 & W3 & O3). apply gm_spec; [exact Wa|exact W3|]. split.
      + rewrite K2, K1, K3. rewrite filter_app, <- !app_assoc. f_equal. f_equal. rewrite filter_comp. apply filter_ext. intros k.
        rewrite !mem_get. specialize (O1 k). destruct (od_get key k a) as [xa|], (od_get key k b) as [xb|]; simpl in *;
          try (destruct (mer xa xb) as [z|]; simpl in *; [|discriminate]); injection O1 as O1; rewrite <- O1; reflexivity.
      + intros k. specialize (O1 k). specialize (O2 k). specialize (O3 k).
        destruct (od_get key k b) as [xb|] eqn:Gb.
        2:{ destruct (od_get key k a) as [xa|]; simpl in *; injection O1 as O1; rewrite <- O1 in O2; injection O3 as O3; rewrite <- O3; exact O2. }
        destruct (od_get key k c) as [xc|] eqn:Gc.
        2:{ simpl in O3. injection O3 as O3. rewrite <- O3. rewrite O1. destruct (od_get key k ab); simpl in O2; exact O2. }
        simpl in O3. destruct (mer xb xc) as [w|] eqn:Ew; simpl in O3; [|discriminate]. injection O3 as O3. rewrite <- O3.
        destruct (od_get key k a) as [xa|] eqn:Ga; simpl in O1.
        * destruct (mer xa xb) as [z|] eqn:Ez; simpl in O1; [|discriminate]. injection O1 as O1. rewrite <- O1 in O2. simpl in O2.
          destruct (mer z xc) as [v|] eqn:Ev; simpl in O2; [|discriminate]. injection O2 as O2. rewrite <- O2.
          destruct (proj1 (mer_assoc xa xb xc v (Pk a k xa Pa Ga) (Pk b k xb Pb Gb) (Pk c k xc Pc Gc))) as (bc' & E & E'); [eauto|].
          assert (bc' = w) by congruence. subst. simpl. rewrite E'. reflexivity.
        * injection O1 as O1. rewrite <- O1 in O2. simpl in O2. rewrite Ew in O2. simpl in O2. exact O2.
    - intros (bc & H1 & H2). destruct (gm_keys c b bc Wb Wc H1) as (K1 & W1 & O1). destruct (gm_keys bc a m Wa W1 H2) as (K2 & W2 & O2).
      assert (Hab : exists ab, gm a b = Ok ab).
      { apply gm_ok; [exact Wa|exact Wb|]. intros k e E. specialize (O1 k). specialize (O2 k).
        destruct (od_get key k a) as [xa|] eqn:Ga; [|discriminate]. destruct (od_get key k b) as [xb|] eqn:Gb; [|discriminate].
        simpl in E. destruct (mer xa xb) as [w|e'] eqn:Ew; simpl in E; [discriminate|]. injection E as <-.
        destruct (od_get key k c) as [xc|] eqn:Gc; simpl in O1.
        - destruct (mer xb xc) as [z|] eqn:Ez; simpl in O1; [|discriminate]. injection O1 as O1. rewrite <- O1 in O2. simpl in O2.
          destruct (mer xa z) as [v|] eqn:Ev; simpl in O2; [|discriminate].
          destruct (proj2 (mer_assoc xa xb xc v (Pk a k xa Pa Ga) (Pk b k xb Pb Gb) (Pk c k xc Pc Gc))) as (ab & E & _); [eauto|]. congruence.
        - injection O1 as O1. rewrite <- O1 in O2. simpl in O2. rewrite Ew in O2. discriminate. }
      destruct Hab as [ab H3]. exists ab. split; [exact H3|].
      destruct (gm_keys b a ab Wa Wb H3) as (K3 & W3 & O3). apply gm_spec; [exact W3|exact Wc|]. split.
      + rewrite K2, K1, K3. rewrite filter_app, <- !app_assoc. f_equal. f_equal. rewrite filter_comp. apply filter_ext. intros k.
        rewrite !mem_get. specialize (O3 k). destruct (od_get key k a) as [xa|], (od_get key k b) as [xb|]; simpl in *;
          try (destruct (mer xa xb) as [z|]; simpl in *; [|discriminate]); injection O3 as O3; rewrite <- O3; reflexivity.
      + intros k. specialize (O1 k). specialize (O2 k). specialize (O3 k).
        destruct (od_get key k b) as [xb|] eqn:Gb.
        2:{ destruct (od_get key k a) as [xa|]; simpl in *; injection O1 as O1; rewrite <- O1 in O2; injection O3 as O3; rewrite <- O3; exact O2. }
        destruct (od_get key k c) as [xc|] eqn:Gc.
        2:{ simpl in O1. injection O1 as O1. rewrite <- O1 in O2. rewrite O3 in O2. rewrite <- O2. destruct (od_get key k ab); reflexivity. }
        simpl in O1. destruct (mer xb xc) as [w|] eqn:Ew; simpl in O1; [|discriminate]. injection O1 as O1. rewrite <- O1 in O2.
        destruct (od_get key k a) as [xa|] eqn:Ga; simpl in O3.
        * destruct (mer xa xb) as [z|] eqn:Ez; simpl in O3; [|discriminate]. injection O3 as O3. rewrite <- O3. simpl in O2.
          destruct (mer xa w) as [v|] eqn:Ev; simpl in O2; [|discriminate]. injection O2 as O2. rewrite <- O2.
          destruct (proj2 (mer_assoc xa xb xc v (Pk a k xa Pa Ga) (Pk b k xb Pb Gb) (Pk c k xc Pc Gc))) as (ab' & E & E'); [eauto|].
          assert (ab' = z) by congruence. subst. simpl. rewrite E'. reflexivity.
        * injection O3 as O3. rewrite <- O3. simpl. rewrite Ew. simpl. exact O2.
  Qed.

  (** absorption: merging again changes nothing *)
  Hypothesis mer_absorb : forall a b m, P a -> P b -> key a = key b -> mer a b = Ok m -> mer m b = Ok m.
  Hypothesis mer_idem : forall a, P a -> mer a a = Ok a.
  Lemma gm_idem a : (forall x, In x a -> P x) -> wf a -> gm a a = Ok a.
  Proof.
    intros Pa W. apply gm_spec; [exact W|exact W|]. split.
    - transitivity (keys a ++ []); [now rewrite app_nil_r|]. f_equal. symmetry.
      assert (G : forall l, incl l (keys a) -> filter (fun k => negb (od_mem key k a)) l = []).
      { induction l as [|k l IH]; intros I; [reflexivity|]. simpl. rewrite (proj2 (mem_spec key k a)) by (apply I; now left). apply IH. intros z Iz. apply I. now right. }
      apply G. intros z; auto.
    - intros k. destruct (od_get key k a) as [x|] eqn:G; [|reflexivity]. simpl. apply get_some in G as [I _]. rewrite mer_idem by auto. reflexivity.
  Qed.
  Lemma gm_absorb a b m : (forall x, In x a -> P x) -> (forall x, In x b -> P x) -> wf a -> wf b -> gm a b = Ok m -> gm m b = Ok m.
  Proof.
    intros Pa Pb Wa Wb H. destruct (gm_keys b a m Wa Wb H) as (K & W & O). apply gm_spec; [exact W|exact Wb|]. split.
    - transitivity (keys m ++ []); [now rewrite app_nil_r|]. f_equal. symmetry.
      assert (G : forall l, incl l (keys b) -> filter (fun k => negb (od_mem key k m)) l = []).
      { induction l as [|k l IH]; intros I; [reflexivity|]. simpl. rewrite mem_get. specialize (O k).
        assert (Ik : In k (keys b)) by (apply I; now left). apply (mem_spec key) in Ik. rewrite mem_get in Ik.
        destruct (od_get key k b) as [x|]; [|discriminate]. destruct (od_get key k a) as [y|]; simpl in O; [destruct (mer y x); simpl in O; [|discriminate]|];
          injection O as O; rewrite <- O; simpl; apply IH; intros z Iz; apply I; now right. }
      apply G. intros z; auto.
    - intros k. specialize (O k). destruct (od_get key k b) as [x|] eqn:Gb; [|destruct (od_get key k m); reflexivity].
      destruct (get_some _ _ _ _ Gb) as [Ib Kb]. destruct (od_get key k a) as [y|] eqn:Ga; simpl in O.
      + destruct (get_some _ _ _ _ Ga) as [Ia Ka]. destruct (mer y x) as [z|] eqn:Ez; simpl in O; [|discriminate]. injection O as O. rewrite <- O. simpl.
        rewrite (mer_absorb _ _ _ (Pa _ Ia) (Pb _ Ib) (eq_trans Ka (eq_sym Kb)) Ez). reflexivity.
      + injection O as O. rewrite <- O. simpl. rewrite mer_idem by auto. reflexivity.
  Qed.

  (** commutativity up to an equivalence *)
  Context (R : A -> A -> Prop).
  Hypothesis mer_comm : forall a b m, P a -> P b -> key a = key b -> mer a b = Ok m -> exists m', mer b a = Ok m' /\ R m m'.
  Hypothesis R_refl : forall a, P a -> R a a.
  Lemma gm_comm a b m : (forall x, In x a -> P x) -> (forall x, In x b -> P x) -> wf a -> wf b -> gm a b = Ok m ->
    exists m', gm b a = Ok m' /\ same_in key R m m'.
  Proof.
    intros Pa Pb Wa Wb H. destruct (gm_keys b a m Wa Wb H) as (K & W & O).
    assert (H' : exists m', gm b a = Ok m').
    { apply gm_ok; [exact Wb|exact Wa|]. intros k e E. specialize (O k). destruct (od_get key k b) as [x|] eqn:Gb; [|discriminate].
      destruct (od_get key k a) as [y|] eqn:Ga; [|discriminate]. simpl in *.
      destruct (get_some _ _ _ _ Gb) as [Ib Kb]. destruct (get_some _ _ _ _ Ga) as [Ia Ka].
      destruct (mer y x) as [z|] eqn:Ez; simpl in O; [|discriminate].
      destruct (mer_comm _ _ _ (Pa _ Ia) (Pb _ Ib) (eq_trans Ka (eq_sym Kb)) Ez) as (m' & E' & _). rewrite E' in E. discriminate. }
    destruct H' as [m' H']. exists m'. split; [exact H'|]. destruct (gm_keys a b m' Wb Wa H') as (K' & W' & O').
    assert (G : forall k, match od_get key k m, od_get key k m' with Some x, Some y => R x y | None, None => True | _, _ => False end).
    { intros k. specialize (O k). specialize (O' k). destruct (od_get key k b) as [x|] eqn:Gb, (od_get key k a) as [y|] eqn:Ga; simpl in *.
      - destruct (get_some _ _ _ _ Gb) as [Ib Kb]. destruct (get_some _ _ _ _ Ga) as [Ia Ka].
        destruct (mer y x) as [z|] eqn:Ez; simpl in O; [|discriminate].
        destruct (mer_comm _ _ _ (Pa _ Ia) (Pb _ Ib) (eq_trans Ka (eq_sym Kb)) Ez) as (z' & E' & Hr). rewrite E' in O'. simpl in O'.
        injection O as O. injection O' as O'. rewrite <- O, <- O'. exact Hr.
      - injection O as O. injection O' as O'. rewrite <- O, <- O'. apply R_refl. apply get_some in Gb as [Ib _]. auto.
      - injection O as O. injection O' as O'. rewrite <- O, <- O'. apply R_refl. apply get_some in Ga as [Ia _]. auto.
      - injection O as O. injection O' as O'. rewrite <- O, <- O'. exact I. }
    split.
    - intros x Ix. specialize (G (key x)). rewrite (get_in key m x W Ix) in G. destruct (od_get key (key x) m') as [y|] eqn:E; [|destruct G].
      apply get_some in E as [I1 I2]. exists y. auto.
    - intros y Iy. specialize (G (key y)). rewrite (get_in key m' y W' Iy) in G. destruct (od_get key (key y) m) as [x|] eqn:E; [|destruct G].
      apply get_some in E as [I1 I2]. exists x. auto.
  Qed.
End Gen.

(** ** Leaf collections: equal items are kept *)
Definition keep {A} (eqb : A -> A -> bool) (y x : A) : res A := if eqb y x then Ok y else Err "FormationError".
Lemma set_same {A} (key : A -> string) y self : od_get key (key y) self = Some y -> od_set key y self = self.
Proof.
  induction self as [|z self IH]; [discriminate|]. rewrite get_cons. cbn [od_set].
  destruct (String.eqb (key z) (key y)); [intros [= ->]; reflexivity|]. intros H. now rewrite IH.
Qed.
Lemma merge_objs_gm {A} (key : A -> string) eqb op : forall self, merge_objs key eqb self op = gm key (keep eqb) self op.
Proof.
  induction op as [|x r IH]; intros self; [reflexivity|]. simpl. destruct (od_get key (key x) self) as [y|] eqn:G.
  - unfold keep at 1. destruct (eqb y x); [|reflexivity]. simpl. rewrite set_same; [apply IH|]. destruct (get_some _ _ _ _ G) as [_ K]. now rewrite K.
  - destruct (od_add key x self); simpl; [apply IH|reflexivity].
Qed.

Section Leaf.
  Context {A : Type} (key : A -> string) (eqb : A -> A -> bool) (P : A -> Prop) (same : A -> A -> Prop).
  Hypothesis eqb_same : forall a b, P a -> P b -> (eqb a b = true <-> same a b).
  Hypothesis same_refl : forall a, same a a.
  Hypothesis same_sym : forall a b, same a b -> same b a.
  Hypothesis same_trans : forall a b c, same a b -> same b c -> same a c.
  Notation wf l := (NoDup (map key l)).
  Lemma keep_ok y x m : keep eqb y x = Ok m <-> eqb y x = true /\ m = y.
  Proof. unfold keep. destruct (eqb y x); split; [intros [= ->]; auto|intros [_ ->]; reflexivity|discriminate|intros [? _]; discriminate]. Qed.
  Lemma keep_key y x m : key y = key x -> keep eqb y x = Ok m -> key m = key y.
  Proof. intros _ H. now apply keep_ok in H as [_ ->]. Qed.
  Lemma keep_P y x m : P y -> P x -> keep eqb y x = Ok m -> P m.
  Proof. intros Hy _ H. now apply keep_ok in H as [_ ->]. Qed.
  Lemma keep_assoc a b c m : P a -> P b -> P c ->
    (exists ab, keep eqb a b = Ok ab /\ keep eqb ab c = Ok m) <-> (exists bc, keep eqb b c = Ok bc /\ keep eqb a bc = Ok m).
  Proof.
    intros Pa Pb Pc. split.
    - intros (ab & H1 & H2). apply keep_ok in H1 as [H1 ->]. apply keep_ok in H2 as [H2 ->]. exists b. rewrite !keep_ok.
      apply eqb_same in H1, H2; auto. split; [split; [apply eqb_same; eauto|reflexivity]|split; [apply eqb_same; eauto|reflexivity]].
    - intros (bc & H1 & H2). apply keep_ok in H1 as [H1 ->]. apply keep_ok in H2 as [H2 ->]. exists a. rewrite !keep_ok.
      apply eqb_same in H1, H2; auto. split; [split; [apply eqb_same; eauto|reflexivity]|split; [apply eqb_same; eauto|reflexivity]].
  Qed.
  Lemma keep_absorb a b m : P a -> P b -> key a = key b -> keep eqb a b = Ok m -> keep eqb m b = Ok m.
  Proof. intros _ _ _ H. apply keep_ok in H as [H ->]. now apply keep_ok. Qed.
  Lemma keep_idem a : P a -> keep eqb a a = Ok a.
  Proof. intros Pa. apply keep_ok. split; [now apply eqb_same|reflexivity]. Qed.
  Lemma keep_comm a b m : P a -> P b -> key a = key b -> keep eqb a b = Ok m -> exists m', keep eqb b a = Ok m' /\ same m m'.
  Proof. intros Pa Pb _ H. apply keep_ok in H as [H ->]. exists b. apply eqb_same in H; auto. rewrite keep_ok. split; [split; [apply eqb_same; auto|reflexivity]|exact H]. Qed.

  Lemma leaf_ok self op : (forall x, In x self -> P x) -> (forall x, In x op -> P x) -> wf self -> wf op ->
    (exists m, merge_objs key eqb self op = Ok m) <-> (forall x y, In x self -> In y op -> key x = key y -> same x y).
  Proof.
    intros Ps Po Ws Wo. rewrite merge_objs_gm. split.
    - intros (m & H) x y Ix Iy K. destruct (gm_keys key (keep eqb) keep_key op self m Ws Wo H) as (_ & _ & O). specialize (O (key x)).
      rewrite (get_in key self x Ws Ix), K, (get_in key op y Wo Iy) in O. simpl in O. destruct (keep eqb x y) as [z|] eqn:E; [|discriminate].
      apply keep_ok in E as [E _]. apply eqb_same in E; auto.
    - intros H. apply (gm_ok key (keep eqb) keep_key op self Ws Wo). intros k e E.
      destruct (od_get key k self) as [x|] eqn:Gs; [|discriminate]. destruct (od_get key k op) as [y|] eqn:Go; [|discriminate].
      apply get_some in Gs as [Is Ks]. apply get_some in Go as [Io Ko]. simpl in E.
      assert (Hs : same x y) by (apply H; congruence). apply eqb_same in Hs; auto. unfold keep in E. rewrite Hs in E. discriminate.
  Qed.
  Lemma leaf_extends self op m : wf self -> wf op -> merge_objs key eqb self op = Ok m -> extends key self op m.
  Proof.
    clear P eqb_same same_refl same_sym same_trans.
    intros Ws Wo H. rewrite merge_objs_gm in H. exists (filter (fun x => negb (od_mem key (key x) self)) op). split; [|split].
    - destruct (gm_keys key (keep eqb) keep_key op self m Ws Wo H) as (K & W & O). apply (dict_ext key).
      + exact W.
      + rewrite K, map_app. f_equal. clear. induction op as [|x r IH]; [reflexivity|]. simpl. destruct (od_mem key (key x) self); simpl; now rewrite IH.
      + intros k. specialize (O k). rewrite get_app, (filter_get key (fun k => negb (od_mem key k self))), mem_get.
        destruct (od_get key k self) as [x|]; simpl.
        * destruct (od_get key k op) as [y|]; simpl in O; [|congruence]. destruct (keep eqb x y) as [z|] eqn:E; simpl in O; [|discriminate].
          apply keep_ok in E as [_ ->]. congruence.
        * simpl in O. injection O as O. now rewrite <- O.
    - intros x. rewrite filter_In, negb_true_iff, mem_false. reflexivity.
    - eexists. reflexivity.
  Qed.
  Lemma leaf_wf self op m : wf self -> wf op -> merge_objs key eqb self op = Ok m -> wf m.
  Proof. clear P eqb_same same_refl same_sym same_trans. intros Ws Wo H. rewrite merge_objs_gm in H. now destruct (gm_keys key (keep eqb) keep_key op self m Ws Wo H) as (_ & W & _). Qed.
  Lemma leaf_in self op m x : wf self -> wf op -> merge_objs key eqb self op = Ok m -> In x m -> In x self \/ In x op.
  Proof.
    clear P eqb_same same_refl same_sym same_trans. intros Ws Wo H I. destruct (leaf_extends self op m Ws Wo H) as (new & -> & Hn & _).
    apply in_app_iff in I as [I|I]; [now left|]. apply Hn in I as [I _]. now right.
  Qed.
  Lemma leaf_assoc a b c m : (forall x, In x a -> P x) -> (forall x, In x b -> P x) -> (forall x, In x c -> P x) -> wf a -> wf b -> wf c ->
    (exists ab, merge_objs key eqb a b = Ok ab /\ merge_objs key eqb ab c = Ok m) <->
    (exists bc, merge_objs key eqb b c = Ok bc /\ merge_objs key eqb a bc = Ok m).
  Proof.
    intros. pose proof (gm_assoc key (keep eqb) P keep_key keep_assoc a b c m) as G.
    split; intros (z & H5 & H6); rewrite merge_objs_gm in H5, H6.
    - destruct (proj1 (G H H0 H1 H2 H3 H4)) as (w & H7 & H8); [eauto|]. exists w. rewrite !merge_objs_gm. auto.
    - destruct (proj2 (G H H0 H1 H2 H3 H4)) as (w & H7 & H8); [eauto|]. exists w. rewrite !merge_objs_gm. auto.
  Qed.
End Leaf.

(** ** The library's equality is equality of definitions *)
Lemma qid_eqb_eq' a b : qid_eqb a b = true <-> a = b.
Proof. exact (Types.qid_eqb_eq a b). Qed.
Lemma enum_same a b : enum_eqb a b = true <-> same_enum a b.
Proof. rewrite enum_eqb_eq. destruct a, b. unfold same_enum. simpl. split; [intros [= -> ->]; auto|intros [-> ->]; reflexivity]. Qed.
Lemma od_same {A} (key : A -> string) eqA a b : NoDup (map key a) -> NoDup (map key b) -> (forall x y, eqA x y = true <-> x = y) ->
  od_eqb key eqA a b = true <-> Permutation a b.
Proof.
  intros Na Nb H. split.
  - intros E. apply (ObjectDictProofs.eqb_spec key eqA a b); auto. intros; now apply H.
  - intros E. apply eqb_perm; auto. intros; now apply H.
Qed.
Lemma struct_same a b : NoDup (map m_name (s_members a)) -> NoDup (map m_name (s_members b)) -> struct_eqb a b = true <-> same_struct a b.
Proof. intros Na Nb. unfold struct_eqb, same_struct. rewrite !andb_true_iff, Types.qid_eqb_eq, os_eqb_eq, (od_same m_name mem_eqb) by auto using mem_eqb_eq. tauto. Qed.
Lemma table_same a b : table_keyed a -> table_keyed b -> table_eqb a b = true <-> same_table a b.
Proof.
  intros [A1 A2] [B1 B2]. unfold table_eqb, same_table.
  rewrite !andb_true_iff, Types.qid_eqb_eq, os_eqb_eq, sl_eqb_eq, eqb_true_iff, (od_same c_name col_eqb), (od_same k_name constr_eqb) by auto using NoopProofs.col_eqb_eq, constr_eqb_eq.
  assert (E : is_some (t_enum a) = is_some (t_enum b) <-> (t_enum a = None <-> t_enum b = None)).
  { destruct (t_enum a), (t_enum b); simpl; split; intros Hx; try reflexivity; try discriminate Hx; try (split; intros; assumption || discriminate); destruct Hx as [H1 H2]; try discriminate (H1 eq_refl); discriminate (H2 eq_refl). }
  tauto.
Qed.
Lemma same_enum_equiv : (forall a, same_enum a a) /\ (forall a b, same_enum a b -> same_enum b a) /\ (forall a b c, same_enum a b -> same_enum b c -> same_enum a c).
Proof. unfold same_enum. repeat split; intuition congruence. Qed.
Lemma same_struct_equiv : (forall a, same_struct a a) /\ (forall a b, same_struct a b -> same_struct b a) /\ (forall a b c, same_struct a b -> same_struct b c -> same_struct a c).
Proof.
  unfold same_struct. split; [auto|split].
  - intros a b (-> & H & ->). split; [reflexivity|split; [now symmetry|reflexivity]].
  - intros a b c (-> & H & ->) (-> & H' & ->). split; [reflexivity|split; [now transitivity (s_members b)|reflexivity]].
Qed.
Lemma same_table_equiv : (forall a, same_table a a) /\ (forall a b, same_table a b -> same_table b a) /\ (forall a b c, same_table a b -> same_table b c -> same_table a c).
Proof.
  unfold same_table. split; [intuition|split].
  - intros a b (-> & H & -> & H' & -> & E). repeat split; try (now symmetry); tauto.
  - intros a b c (-> & H & -> & H' & -> & E) (-> & H1 & -> & H1' & -> & E'). repeat split; try (now transitivity (t_columns b)); try (now transitivity (t_constraints b)); tauto.
Qed.

(** ** Namespaces *)
Lemma ns_merge_inv a b m : ns_merge a b = Ok m <->
  n_name m = n_name a /\ merge_objs e_key enum_eqb (n_enums a) (n_enums b) = Ok (n_enums m) /\
  merge_objs s_key struct_eqb (n_structs a) (n_structs b) = Ok (n_structs m) /\ merge_objs t_key table_eqb (n_tables a) (n_tables b) = Ok (n_tables m).
Proof.
  unfold ns_merge. split.
  - intros H. destruct (merge_objs e_key _ _ _) as [es|]; simpl in H; [|discriminate]. destruct (merge_objs s_key _ _ _) as [ss|]; simpl in H; [|discriminate].
    destruct (merge_objs t_key _ _ _) as [ts|]; simpl in H; [|discriminate]. injection H as <-. auto.
  - intros (N & -> & -> & ->). simpl. destruct m. simpl in *. now subst.
Qed.
Lemma ns_key a b m : n_name a = n_name b -> ns_merge a b = Ok m -> n_name m = n_name a.
Proof. intros _ H. now apply ns_merge_inv in H. Qed.
Lemma ns_P a b m : ns_keyed a -> ns_keyed b -> ns_merge a b = Ok m -> ns_keyed m.
Proof.
  intros [A1 A2 A3 A4 A5] [B1 B2 B3 B4 B5] H. apply ns_merge_inv in H as (N & H1 & H2 & H3). constructor.
  - eapply leaf_wf; [exact A1|exact B1|exact H1].
  - eapply leaf_wf; [exact A2|exact B2|exact H2].
  - eapply leaf_wf; [exact A3|exact B3|exact H3].
  - intros x I. eapply leaf_in in I; [|exact A2|exact B2|exact H2]. destruct I; auto.
  - intros x I. eapply leaf_in in I; [|exact A3|exact B3|exact H3]. destruct I; auto.
Qed.
Definition SP (x : structt) := NoDup (map m_name (s_members x)).
Lemma ns_ok a b : ns_keyed a -> ns_keyed b -> (exists m, ns_merge a b = Ok m) <-> agree_ns a b.
Proof.
  intros [A1 A2 A3 A4 A5] [B1 B2 B3 B4 B5]. unfold agree_ns.
  rewrite <- (leaf_ok e_key enum_eqb (fun _ => True) same_enum) by (auto; intros; apply enum_same).
  rewrite <- (leaf_ok s_key struct_eqb SP same_struct) by (auto; intros; now apply struct_same).
  rewrite <- (leaf_ok t_key table_eqb table_keyed same_table) by (auto; intros; now apply table_same).
  split.
  - intros (m & H). apply ns_merge_inv in H as (_ & H1 & H2 & H3). split; [|split]; eauto.
  - intros ((es & H1) & (ss & H2) & (ts & H3)). exists (Ns (n_name a) es ss ts). now apply ns_merge_inv.
Qed.
Lemma ns_ext a b m : ns_keyed a -> ns_keyed b -> ns_merge a b = Ok m -> ns_extends a b m.
Proof.
  intros [A1 A2 A3 A4 A5] [B1 B2 B3 B4 B5] H. apply ns_merge_inv in H as (N & H1 & H2 & H3). split; [exact N|]. split; [|split].
  - eapply leaf_extends; [exact A1|exact B1|exact H1].
  - eapply leaf_extends; [exact A2|exact B2|exact H2].
  - eapply leaf_extends; [exact A3|exact B3|exact H3].
Qed.
Lemma ns_assoc a b c m : ns_keyed a -> ns_keyed b -> ns_keyed c ->
  (exists ab, ns_merge a b = Ok ab /\ ns_merge ab c = Ok m) <-> (exists bc, ns_merge b c = Ok bc /\ ns_merge a bc = Ok m).
Proof.
  intros [A1 A2 A3 A4 A5] [B1 B2 B3 B4 B5] [C1 C2 C3 C4 C5].
  destruct same_enum_equiv as (E1 & E2 & E3). destruct same_struct_equiv as (S1 & S2 & S3). destruct same_table_equiv as (T1 & T2 & T3).
  assert (GE : forall m, (exists ab, merge_objs e_key enum_eqb (n_enums a) (n_enums b) = Ok ab /\ merge_objs e_key enum_eqb ab (n_enums c) = Ok m) <-> (exists bc, merge_objs e_key enum_eqb (n_enums b) (n_enums c) = Ok bc /\ merge_objs e_key enum_eqb (n_enums a) bc = Ok m)).
  { intros. apply (leaf_assoc e_key enum_eqb (fun _ => True) same_enum); auto. intros; apply enum_same. }
  assert (GS : forall m, (exists ab, merge_objs s_key struct_eqb (n_structs a) (n_structs b) = Ok ab /\ merge_objs s_key struct_eqb ab (n_structs c) = Ok m) <-> (exists bc, merge_objs s_key struct_eqb (n_structs b) (n_structs c) = Ok bc /\ merge_objs s_key struct_eqb (n_structs a) bc = Ok m)).
  { intros. apply (leaf_assoc s_key struct_eqb SP same_struct); auto. intros; now apply struct_same. }
  assert (GT : forall m, (exists ab, merge_objs t_key table_eqb (n_tables a) (n_tables b) = Ok ab /\ merge_objs t_key table_eqb ab (n_tables c) = Ok m) <-> (exists bc, merge_objs t_key table_eqb (n_tables b) (n_tables c) = Ok bc /\ merge_objs t_key table_eqb (n_tables a) bc = Ok m)).
  { intros. apply (leaf_assoc t_key table_eqb table_keyed same_table); auto. intros; now apply table_same. }
  split.
  - intros (ab & H1 & H2). apply ns_merge_inv in H1 as (N1 & H11 & H12 & H13). apply ns_merge_inv in H2 as (N2 & H21 & H22 & H23).
    destruct (proj1 (GE (n_enums m))) as (es & X1 & X2); [eauto|]. destruct (proj1 (GS (n_structs m))) as (ss & Y1 & Y2); [eauto|]. destruct (proj1 (GT (n_tables m))) as (ts & Z1 & Z2); [eauto|].
    exists (Ns (n_name b) es ss ts). rewrite !ns_merge_inv. simpl. repeat split; auto. congruence.
  - intros (bc & H1 & H2). apply ns_merge_inv in H1 as (N1 & H11 & H12 & H13). apply ns_merge_inv in H2 as (N2 & H21 & H22 & H23).
    destruct (proj2 (GE (n_enums m))) as (es & X1 & X2); [eauto|]. destruct (proj2 (GS (n_structs m))) as (ss & Y1 & Y2); [eauto|]. destruct (proj2 (GT (n_tables m))) as (ts & Z1 & Z2); [eauto|].
    exists (Ns (n_name a) es ss ts). rewrite !ns_merge_inv. simpl. repeat split; auto.
Qed.
Lemma ns_idem a : ns_keyed a -> ns_merge a a = Ok a.
Proof.
  intros [A1 A2 A3 A4 A5]. apply ns_merge_inv. rewrite !merge_objs_gm. split; [reflexivity|].
  destruct same_enum_equiv as (E1 & E2 & E3). destruct same_struct_equiv as (S1 & S2 & S3). destruct same_table_equiv as (T1 & T2 & T3).
  split; [|split].
  - apply (gm_idem e_key (keep enum_eqb) (fun _ => True)); auto; try exact (keep_key _ _). intros; apply (keep_idem enum_eqb (fun _ => True) same_enum); auto. intros; apply enum_same.
  - apply (gm_idem s_key (keep struct_eqb) SP); auto; try exact (keep_key _ _). intros; apply (keep_idem struct_eqb SP same_struct); auto. intros; now apply struct_same.
  - apply (gm_idem t_key (keep table_eqb) table_keyed); auto; try exact (keep_key _ _). intros; apply (keep_idem table_eqb table_keyed same_table); auto. intros; now apply table_same.
Qed.
Lemma ns_absorb a b m : ns_keyed a -> ns_keyed b -> n_name a = n_name b -> ns_merge a b = Ok m -> ns_merge m b = Ok m.
Proof.
  intros [A1 A2 A3 A4 A5] [B1 B2 B3 B4 B5] _ H. apply ns_merge_inv in H as (N & H1 & H2 & H3). apply ns_merge_inv. rewrite !merge_objs_gm in *. split; [reflexivity|].
  destruct same_enum_equiv as (E1 & E2 & E3). destruct same_struct_equiv as (S1 & S2 & S3). destruct same_table_equiv as (T1 & T2 & T3).
  split; [|split].
  - apply (gm_absorb e_key (keep enum_eqb) (fun _ => True)) with (a := n_enums a); auto; try exact (keep_key _ _).
    + intros x y z _ _. now apply (keep_absorb e_key enum_eqb (fun _ => True)).
    + intros; apply (keep_idem enum_eqb (fun _ => True) same_enum); auto. intros; apply enum_same.
  - apply (gm_absorb s_key (keep struct_eqb) SP) with (a := n_structs a); auto; try exact (keep_key _ _).
    + intros x y z Hx Hy. now apply (keep_absorb s_key struct_eqb SP).
    + intros; apply (keep_idem struct_eqb SP same_struct); auto. intros; now apply struct_same.
  - apply (gm_absorb t_key (keep table_eqb) table_keyed) with (a := n_tables a); auto; try exact (keep_key _ _).
    + intros x y z Hx Hy. now apply (keep_absorb t_key table_eqb table_keyed).
    + intros; apply (keep_idem table_eqb table_keyed same_table); auto. intros; now apply table_same.
Qed.
Lemma ns_same_refl a : same_ns a a.
Proof.
  destruct same_enum_equiv as (E1 & E2 & E3). destruct same_struct_equiv as (S1 & S2 & S3). destruct same_table_equiv as (T1 & T2 & T3).
  split; [reflexivity|]. split; [|split]; split; intros x Ix; exists x; auto.
Qed.
Lemma ns_comm a b m : ns_keyed a -> ns_keyed b -> n_name a = n_name b -> ns_merge a b = Ok m -> exists m', ns_merge b a = Ok m' /\ same_ns m m'.
Proof.
  intros [A1 A2 A3 A4 A5] [B1 B2 B3 B4 B5] Nab H. apply ns_merge_inv in H as (N & H1 & H2 & H3). rewrite !merge_objs_gm in *.
  destruct same_enum_equiv as (E1 & E2 & E3). destruct same_struct_equiv as (S1 & S2 & S3). destruct same_table_equiv as (T1 & T2 & T3).
  destruct (gm_comm e_key (keep enum_eqb) (fun _ => True) (keep_key e_key enum_eqb) same_enum) with (a := n_enums a) (b := n_enums b) (m := n_enums m) as (es & X1 & X2); auto.
  { intros; eapply (keep_comm e_key enum_eqb (fun _ => True)); eauto. intros; apply enum_same. }
  destruct (gm_comm s_key (keep struct_eqb) SP (keep_key s_key struct_eqb) same_struct) with (a := n_structs a) (b := n_structs b) (m := n_structs m) as (ss & Y1 & Y2); auto.
  { intros; eapply (keep_comm s_key struct_eqb SP); eauto. intros; now apply struct_same. }
  destruct (gm_comm t_key (keep table_eqb) table_keyed (keep_key t_key table_eqb) same_table) with (a := n_tables a) (b := n_tables b) (m := n_tables m) as (ts & Z1 & Z2); auto.
  { intros; eapply (keep_comm t_key table_eqb table_keyed); eauto. intros; now apply table_same. }
  exists (Ns (n_name b) es ss ts). rewrite ns_merge_inv. simpl. rewrite !merge_objs_gm. split; [auto|]. split; [simpl; congruence|auto].
Qed.

(** ** Catalogs *)
Lemma cat_merge_gm op : forall self, cat_merge self op = gm n_name ns_merge self op.
Proof.
  induction op as [|x r IH]; intros self; [reflexivity|]. simpl. destruct (od_get n_name (n_name x) self) as [y|].
  - destruct (ns_merge y x); simpl; [apply IH|reflexivity].
  - destruct (od_add n_name x self); simpl; [apply IH|reflexivity].
Qed.
Lemma cat_keyed_merge a b m : cat_keyed a -> cat_keyed b -> cat_merge a b = Ok m -> cat_keyed m.
Proof.
  intros [A1 A2] [B1 B2] H. rewrite cat_merge_gm in H. constructor.
  - now destruct (gm_keys n_name ns_merge ns_key b a m A1 B1 H) as (_ & W & _).
  - apply (gm_P n_name ns_merge ns_keyed ns_key ns_P b a m); auto.
Qed.
Lemma cat_ok a b : cat_keyed a -> cat_keyed b -> (exists m, cat_merge a b = Ok m) <-> agree a b.
Proof.
  intros [A1 A2] [B1 B2]. split.
  - intros (m & H) x y Ix Iy K. rewrite cat_merge_gm in H. destruct (gm_keys n_name ns_merge ns_key b a m A1 B1 H) as (_ & _ & O). specialize (O (n_name x)).
    rewrite (get_in n_name a x A1 Ix), K, (get_in n_name b y B1 Iy) in O. simpl in O. destruct (ns_merge x y) as [z|] eqn:E; [|discriminate]. apply ns_ok; eauto.
  - intros H. setoid_rewrite cat_merge_gm. apply (gm_ok n_name ns_merge ns_key b a A1 B1). intros k e E.
    destruct (od_get n_name k a) as [x|] eqn:Gs; [|discriminate]. destruct (od_get n_name k b) as [y|] eqn:Go; [|discriminate].
    apply get_some in Gs as [Is Ks]. apply get_some in Go as [Io Ko]. simpl in E.
    destruct (proj2 (ns_ok x y (A2 _ Is) (B2 _ Io))) as [z Hz]; [apply H; congruence|]. rewrite Hz in E. discriminate.
Qed.
Lemma cat_union_ok a b m : cat_keyed a -> cat_keyed b -> cat_merge a b = Ok m -> cat_union a b m.
Proof.
  intros [A1 A2] [B1 B2] H. rewrite cat_merge_gm in H. destruct (gm_keys n_name ns_merge ns_key b a m A1 B1 H) as (K & W & O).
  set (upd x := match od_get n_name (n_name x) m with Some z => z | None => x end).
  assert (HU : forall x, In x a -> n_name (upd x) = n_name x).
  { intros x Ix. unfold upd. destruct (od_get n_name (n_name x) m) eqn:G; [|reflexivity]. now apply get_some in G. }
  exists (map upd a), (filter (fun x => negb (od_mem n_name (n_name x) a)) b). split; [|split; [|split]].
  - apply (dict_ext n_name); [exact W| |].
    + rewrite K, map_app, map_map. f_equal.
      * apply map_ext_in. intros x Ix. symmetry. auto.
      * clear. induction b as [|x r IH]; [reflexivity|]. simpl. destruct (od_mem n_name (n_name x) a); simpl; now rewrite IH.
    + intros k. specialize (O k). rewrite get_app, (filter_get n_name (fun k => negb (od_mem n_name k a))), mem_get.
      assert (G : od_get n_name k (map upd a) = match od_get n_name k a with Some x => Some (upd x) | None => None end).
      { clear -HU. induction a as [|x r IH]; [reflexivity|]. simpl map. rewrite !get_cons, HU by now left. destruct (String.eqb (n_name x) k); [reflexivity|]. apply IH. intros; apply HU; now right. }
      rewrite G. destruct (od_get n_name k a) as [x|] eqn:Ga; simpl.
      * destruct (get_some _ _ _ _ Ga) as [_ Kx]. unfold upd. rewrite Kx. destruct (od_get n_name k m) as [z|]; [reflexivity|].
        destruct (od_get n_name k b) as [y|]; simpl in O; [destruct (ns_merge x y)|]; discriminate.
      * simpl in O. injection O as O. now rewrite O.
  - assert (G : forall l, incl l a -> Forall2 (fun x x' => (exists y, In y b /\ n_name y = n_name x /\ ns_extends x y x') \/ (~ In (n_name x) (map n_name b) /\ x' = x)) l (map upd l)); [|apply G; intros z; auto].
    induction l as [|x l IH]; intros I; [constructor|]. simpl. constructor; [|apply IH; intros z Iz; apply I; now right].
    assert (Ix : In x a) by (apply I; now left). specialize (O (n_name x)). rewrite (get_in n_name a x A1 Ix) in O. unfold upd.
    destruct (od_get n_name (n_name x) b) as [y|] eqn:Gb; simpl in O.
    + left. destruct (get_some _ _ _ _ Gb) as [Iy Ky]. exists y. split; [exact Iy|]. split; [exact Ky|].
      destruct (ns_merge x y) as [z|] eqn:E; simpl in O; [|discriminate]. injection O as O. rewrite <- O. apply ns_ext; auto.
    + right. split; [now apply (get_none n_name) in Gb|]. injection O as O. now rewrite <- O.
  - intros x. rewrite filter_In, negb_true_iff, mem_false. reflexivity.
  - eexists. reflexivity.
Qed.
Lemma cat_assoc a b c m : cat_keyed a -> cat_keyed b -> cat_keyed c ->
  (exists ab, cat_merge a b = Ok ab /\ cat_merge ab c = Ok m) <-> (exists bc, cat_merge b c = Ok bc /\ cat_merge a bc = Ok m).
Proof.
  intros [A1 A2] [B1 B2] [C1 C2]. pose proof (gm_assoc n_name ns_merge ns_keyed ns_key ns_assoc a b c m A2 B2 C2 A1 B1 C1) as G.
  split; intros (z & H1 & H2); rewrite cat_merge_gm in H1, H2.
  - destruct (proj1 G) as (w & H3 & H4); [eauto|]. exists w. rewrite !cat_merge_gm. auto.
  - destruct (proj2 G) as (w & H3 & H4); [eauto|]. exists w. rewrite !cat_merge_gm. auto.
Qed.
Lemma cat_idem a : cat_keyed a -> cat_merge a a = Ok a.
Proof. intros [A1 A2]. rewrite cat_merge_gm. apply (gm_idem n_name ns_merge ns_keyed); auto using ns_idem; exact ns_key. Qed.
Lemma cat_absorb a b m : cat_keyed a -> cat_keyed b -> cat_merge a b = Ok m -> cat_merge m b = Ok m.
Proof. intros [A1 A2] [B1 B2]. rewrite !cat_merge_gm. apply (gm_absorb n_name ns_merge ns_keyed); auto using ns_idem; [exact ns_key|exact ns_absorb]. Qed.
Lemma cat_comm a b m : cat_keyed a -> cat_keyed b -> cat_merge a b = Ok m -> exists m', cat_merge b a = Ok m' /\ same_objects m m'.
Proof.
  intros [A1 A2] [B1 B2] H. rewrite cat_merge_gm in H. destruct (gm_comm n_name ns_merge ns_keyed ns_key same_ns) with (a := a) (b := b) (m := m) as (m' & H1 & H2); auto using ns_same_refl; [exact ns_comm|].
  exists m'. rewrite cat_merge_gm. auto.
Qed.
Lemma cat_empty a : cat_merge a [] = Ok a.
Proof. reflexivity. Qed.
Lemma cat_empty_l a : cat_keyed a -> cat_merge [] a = Ok a.
Proof.
  intros [A1 _]. rewrite cat_merge_gm. apply (gm_spec n_name ns_merge ns_key); [constructor|exact A1|]. split.
  - simpl. clear. induction a as [|x r IH]; [reflexivity|]. simpl. now f_equal.
  - intros k. reflexivity.
Qed.
