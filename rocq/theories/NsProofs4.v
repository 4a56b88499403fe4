(** Programs of statements and assertions about every object of the database. *)
From Verif Require Import PyStr QuoteModel ObjectDict ObjectDictSpec ObjectDictProofs Types Objects SqlAst Ddl Mutate DbSpec CatSpec DbLemmas EqProofs TabProofs1 TabProofs2 TabProofs3 TabProofs4 TabProofs5 NsProofs1 NsProofs2 NsProofs3.
From stdpp Require Import gmap strings.
Open Scope list_scope.

Definition asrt : Type := okey -> option dbobj -> Prop.

Section Tri.
  Variable En : engine.
  Variable Sc : gset string.
  Definition tri (P : asrt) (l : list stmt) (Q : asrt) : Prop :=
    forall D, db_schemas D = Sc -> (forall k, P k (gobj D k)) ->
    exists D', exec_all En l D = Some D' /\ db_schemas D' = Sc /\ forall k, Q k (gobj D' k).

  Lemma tri_nil P : tri P [] P.
  Proof. intros D HS HP. exists D. auto. Qed.
  Lemma tri_app (P Q R : asrt) l1 l2 : tri P l1 Q -> tri Q l2 R -> tri P (l1 ++ l2) R.
  Proof.
    intros H1 H2 D HS HP. destruct (H1 D HS HP) as (D1 & X1 & S1 & P1). destruct (H2 D1 S1 P1) as (D2 & X2 & S2 & P2).
    exists D2. rewrite exec_all_app, X1. auto.
  Qed.
  Lemma tri_weaken (P P' Q Q' : asrt) l : (forall k v, P' k v -> P k v) -> (forall k v, Q k v -> Q' k v) -> tri P l Q -> tri P' l Q'.
  Proof. intros HP HQ H D HS HD. destruct (H D HS) as (D' & X & S' & Q1); [auto|]. exists D'. auto. Qed.

  Definition after {A} (key : A -> okey) (post : A -> option dbobj -> Prop) (l : list A) (P : asrt) : asrt :=
    fun k v => (forall x, In x l -> key x = k -> post x v) /\ (~ In k (map key l) -> P k v).
  Lemma after_in {A} (key : A -> okey) post l P x v : In x l -> after key post l P (key x) v -> post x v.
  Proof. intros Ix [H _]. now apply H. Qed.
  Lemma after_out {A} (key : A -> okey) post l P k v : ~ In k (map key l) -> after key post l P k v -> P k v.
  Proof. intros Ik [_ H]. auto. Qed.

  Lemma tri_phase {A} (key : A -> okey) (prog : A -> list stmt) (post : A -> option dbobj -> Prop) l (P : asrt) :
    base.NoDup (map key l) ->
    (forall x D, In x l -> db_schemas D = Sc -> P (key x) (gobj D (key x)) ->
       exists o, exec_all En (prog x) D = Some (set_obj (key x) o D) /\ post x o) ->
    tri P (concat (map prog l)) (after key post l P).
  Proof.
    revert P. induction l as [|x l IH]; intros P W H.
    - simpl. eapply tri_weaken; [| |apply tri_nil with (P := P)]; [auto|]. intros k v Hv. split; [intros y []|auto].
    - cbn [map concat]. inversion W as [|? ? N W']; subst. rewrite elem_of_list_In in N.
      eapply tri_app with (Q := after key post [x] P).
      + intros D HS HP. destruct (H x D (or_introl eq_refl) HS (HP _)) as (o & X & Po). exists (set_obj (key x) o D).
        split; [exact X|]. split; [exact HS|]. intros k. unfold gobj. destruct (decide (k = key x)) as [->|Nk].
        * rewrite set_obj_lookup. split; [intros y [<-|[]] _; exact Po|]. intros Hk. exfalso. apply Hk. now left.
        * rewrite set_obj_lookup_ne by congruence. split; [intros y [<-|[]] Ey; congruence|]. intros _. apply HP.
      + eapply tri_weaken; [| |apply IH with (P := after key post [x] P)]; [auto| |exact W'|].
        * intros k v [H1 H2]. split.
          { intros y [<-|Iy] Ey; [|now apply H1]. destruct H2 as [H2 _]; [congruence|]. apply (H2 x); [now left|exact Ey]. }
          intros Hk. destruct (H2 (fun Z => Hk (or_intror Z))) as [_ H3]. apply H3. intros [Z|[]]. apply Hk. now left.
        * intros y D Iy HS Hy. apply H; [now right|exact HS|]. apply Hy. intros [Z|[]]. apply N. rewrite Z. now apply in_map.
  Qed.

  (** assertions that survive the renaming of types *)
  Variable K : okey -> Prop.
  Definition st1 (p : option dbobj -> Prop) : Prop := forall v v', soft K v v' -> p v -> p v'.
  Definition sta (P : asrt) : Prop := forall k, st1 (P k).
  Lemma sta_after {A} (key : A -> okey) post l P : (forall x, In x l -> st1 (post x)) -> sta P -> sta (after key post l P).
  Proof. intros H1 H2 k v v' Hs [Ha Hb]. split; [intros x Ix Ex; eapply H1; eauto|]. intros Hk. eapply H2; eauto. Qed.

  Definition del (e : enumt) : okey := (fst (key_of (e_name e)), deleted (local_id (e_name e))).
  Definition ek (e : enumt) : okey := key_of (e_name e).
  Definition renamed (l : list enumt) (P : asrt) : asrt := fun k v =>
    (forall e, In e l -> k = ek e -> v = None) /\ (forall e, In e l -> k = del e -> p_type v)
    /\ (~ In k (map ek l) -> ~ In k (map del l) -> P k v).
  Lemma sta_renamed l P : sta P -> sta (renamed l P).
  Proof.
    intros H k v v' Hs (A & B & C). split; [|split].
    - intros e Ie Ee. eapply stable_none; eauto.
    - intros e Ie Ee. eapply stable_type; eauto.
    - intros H1 H2. eapply H; eauto.
  Qed.
  Lemma del_inj e e' : del e = del e' -> fst (ek e) = fst (ek e') -> ek e = ek e'.
  Proof. intros H _. apply pair_equal_spec in H as [H1 H2]. apply deleted_inj in H2. unfold ek, key_of in *. cbn [fst] in H1. now rewrite H1, H2. Qed.

  Lemma tri_soft l (P : asrt) :
    base.NoDup (map ek l) -> (forall e e', In e l -> In e' l -> del e <> ek e') -> (forall e, In e l -> K (ek e)) -> sta P ->
    (forall e v, In e l -> P (ek e) v -> p_type v) -> (forall e v, In e l -> P (del e) v -> v = None) ->
    tri P (map soft_drop_enum l) (renamed l P).
  Proof.
    revert P. induction l as [|x l IH]; intros P W Hd HK HP H1 H2.
    - simpl. eapply tri_weaken; [| |apply tri_nil with (P := P)]; [auto|]. intros k v Hv. split; [intros y []|]. split; [intros y []|]. auto.
    - cbn [map]. inversion W as [|? ? N W']; subst. rewrite elem_of_list_In in N.
      assert (Nd : ~ In (del x) (map del l)).
      { intros Hin. apply in_map_iff in Hin as (y & Ey & Iy). apply N. rewrite <- (del_inj y x Ey); [now apply in_map|]. unfold del in Ey. unfold ek. congruence. }
      eapply tri_app with (l1 := [soft_drop_enum x]) (Q := renamed [x] P).
      + intros D HS HD. destruct (H1 x _ (or_introl eq_refl) (HD _)) as (o & Ho & To).
        assert (Hn := H2 x _ (or_introl eq_refl) (HD _)).
        unfold gobj, ek, del in Ho, Hn. unfold soft_drop_enum. cbn [exec_all exec].
        rewrite Ho. cbn [mbind option_bind]. rewrite To. match goal with |- context [is_none ?t] => replace t with (@None dbobj) by (symmetry; exact Hn) end. cbn [andb is_none mbind option_bind]. eexists. split; [reflexivity|]. split; [exact HS|].
        assert (Dx : del x <> ek x) by (apply Hd; now left).
        match goal with |- forall k, renamed _ _ _ (gobj ?D1 _) => set (D' := D1) end.
        assert (L1 : gobj D' (del x) = Some (retype_obj (key_of (e_name x)) (deleted (local_id (e_name x))) o)) by apply set_obj_lookup.
        assert (L2 : gobj D' (ek x) = None).
        { etransitivity; [apply set_obj_lookup_ne; exact Dx|]. apply set_obj_lookup. }
        assert (L3 : forall k, k <> del x -> k <> ek x -> gobj D' k = retype_obj (key_of (e_name x)) (deleted (local_id (e_name x))) <$> gobj D k).
        { intros k N1 N2. etransitivity; [apply set_obj_lookup_ne; intros Z; apply N1; now rewrite <- Z|].
          etransitivity; [apply set_obj_lookup_ne; intros Z; apply N2; now rewrite <- Z|]. simpl. apply lookup_fmap. }
        clearbody D'.
        intros k. destruct (decide (k = del x)) as [->|N1]; [|destruct (decide (k = ek x)) as [->|N2]].
        { rewrite L1. split; [intros e [<-|[]] Ee; congruence|]. split.
          - intros e _ _. eexists. split; [reflexivity|]. now destruct o.
          - intros _ Hk. exfalso. apply Hk. now left. }
        { rewrite L2. split; [auto|]. split; [intros e [<-|[]] Ee; congruence|]. intros Hk. exfalso. apply Hk. now left. }
        rewrite L3 by assumption.
        split; [intros e [<-|[]] Ee; congruence|]. split; [intros e [<-|[]] Ee; congruence|]. intros _ _.
        eapply HP; [|apply HD]. apply rtc_once. exists (ek x), (deleted (local_id (e_name x))). split; [apply HK; now left|reflexivity].
      + eapply tri_weaken; [| |apply IH with (P := renamed [x] P)]; [auto| |exact W'| | | | | ].
        * intros k v (A & B & C). 
          assert (Cx : forall e, e = x -> k = ek e -> v = None).
          { intros e -> Ee. destruct C as (C & _ & _).
            - rewrite Ee. exact N. 
            - intros Hin. apply in_map_iff in Hin as (y & Ey & Iy). apply (Hd y x); [now right|now left|congruence].
            - apply (C x); [now left|exact Ee]. }
          assert (Cy : forall e, e = x -> k = del e -> p_type v).
          { intros e -> Ee. destruct C as (_ & C & _).
            - intros Hin. apply in_map_iff in Hin as (y & Ey & Iy). apply (Hd x y); [now left|now right|congruence].
            - rewrite Ee. exact Nd.
            - apply (C x); [now left|exact Ee]. }
          split; [|split].
          { intros e [<-|Ie] Ee; [now apply (Cx x)|now apply (A e)]. }
          { intros e [<-|Ie] Ee; [now apply (Cy x)|now apply (B e)]. }
          { intros Ha Hb. destruct C as (_ & _ & C).
            - intros Z; apply Ha; now right.
            - intros Z; apply Hb; now right.
            - apply C; intros [Z|[]]; [apply Ha|apply Hb]; now left. }
        * intros e e' Ie Ie'. apply Hd; now right.
        * intros e Ie. apply HK. now right.
        * now apply sta_renamed.
        * intros e v Ie (_ & _ & C). apply (H1 e); [now right|]. apply C; intros [Z|[]].
          { apply N. rewrite Z. now apply in_map. }
          { apply (Hd x e); [now left|now right|exact Z]. }
        * intros e v Ie (_ & _ & C). apply (H2 e); [now right|]. apply C; intros [Z|[]].
          { apply (Hd e x); [now right|now left|congruence]. }
          { apply Nd. rewrite Z. now apply in_map. }
  Qed.
End Tri.
