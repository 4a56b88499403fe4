(** Executing lists of statements about many objects; renaming of types. *)
From Verif Require Import PyStr QuoteModel ObjectDict ObjectDictSpec ObjectDictProofs Types Objects SqlAst Ddl Mutate DbSpec CatSpec DbLemmas EqProofs TabProofs1 TabProofs2 TabProofs3 TabProofs4 TabProofs5.
From stdpp Require Import gmap strings.
Open Scope list_scope.

Section RunRel.
  Context {I St : Type} (step : I -> St -> option St).
  Context {A K V R : Type} `{EqDecision K} (key : A -> K) (get : St -> K -> V) (rest : St -> R).
  Context (Rel : V -> V -> Prop) `{!PreOrder Rel}.
  Lemma phase_rel (prog : A -> list I) (pre post : A -> V -> Prop) l s :
    base.NoDup (map key l) ->
    (forall x v v', In x l -> Rel v v' -> pre x v -> pre x v') ->
    (forall x v v', In x l -> Rel v v' -> post x v -> post x v') ->
    (forall x s', In x l -> rest s' = rest s -> pre x (get s' (key x)) ->
       (forall k, In k (map key l) \/ Rel (get s k) (get s' k)) ->
       exists s'', run step (prog x) s' = Some s'' /\ rest s'' = rest s' /\ post x (get s'' (key x))
                   /\ forall k, k <> key x -> Rel (get s' k) (get s'' k)) ->
    (forall x, In x l -> pre x (get s (key x))) ->
    exists s', run step (concat (map prog l)) s = Some s' /\ rest s' = rest s
               /\ (forall x, In x l -> post x (get s' (key x)))
               /\ forall k, ~ In k (map key l) -> Rel (get s k) (get s' k).
  Proof.
    intros W Sp Sq H P.
    assert (G : forall l2 l1 s1, l = (l1 ++ l2)%list -> rest s1 = rest s ->
              (forall x, In x l1 -> post x (get s1 (key x))) ->
              (forall k, ~ In k (map key l1) -> Rel (get s k) (get s1 k)) ->
              exists s', run step (concat (map prog l2)) s1 = Some s' /\ rest s' = rest s
               /\ (forall x, In x l -> post x (get s' (key x)))
               /\ forall k, ~ In k (map key l) -> Rel (get s k) (get s' k)).
    { induction l2 as [|x l2 IH]; intros l1 s1 E R1 V1 G1.
      - exists s1. rewrite app_nil_r in E. subst l1. simpl. auto.
      - assert (N1 : ~ In (key x) (map key l1)).
        { intros Hin. subst l. rewrite map_app in W. apply NoDup_app in W as (_ & W & _).
          apply (W (key x)). - now apply elem_of_list_In. - simpl. apply elem_of_list_here. }
        assert (Ix : In x l) by (subst l; apply in_or_app; right; left; reflexivity).
        assert (Il : forall y, In y l1 -> In y l) by (intros y Iy; subst l; apply in_or_app; now left).
        destruct (H x s1 Ix R1) as (s2 & Hr & R2 & V2 & G2).
        + eapply Sp; [exact Ix| |now apply P]. now apply G1.
        + intros k. destruct (in_dec (fun a b => decide (a = b)) k (map key l1)) as [Hk|Hk]; [left|right; now apply G1].
          apply in_map_iff in Hk as (y & <- & Iy). apply in_map. now apply Il.
        + simpl. rewrite run_app, Hr. simpl.
          apply (IH (l1 ++ [x])%list s2).
          * rewrite <- app_assoc. exact E.
          * congruence.
          * intros y Iy. apply in_app_or in Iy as [Iy|[<-|[]]]; [|exact V2].
            destruct (decide (key y = key x)) as [Ek|Nk].
            { exfalso. apply N1. rewrite <- Ek. now apply in_map. }
            eapply Sq; [now apply Il| |now apply V1]. now apply G2.
          * intros k Hk. rewrite map_app in Hk. simpl in Hk.
            transitivity (get s1 k); [apply G1|apply G2]; intros Hin; apply Hk; apply in_or_app; [now left|right; now left]. }
    apply (G l [] s); auto; [intros x []|]. intros k _. reflexivity.
  Qed.
End RunRel.

(** ** Renaming of types *)
Lemma type_refs_struct fs : type_refs (TStruct fs) = flat_map (fun f => type_refs (snd (fst f))) fs.
Proof. induction fs as [|[[a u] b] r IH]; [reflexivity|]. simpl in *. now rewrite IH. Qed.
Lemma retype_struct k n fs : retype k n (TStruct fs) = TStruct (map (fun f => (fst (fst f), retype k n (snd (fst f)), snd f)) fs).
Proof.
  simpl. f_equal. induction fs as [|[[a u] b] r IH]; [reflexivity|]. simpl. now rewrite IH.
Qed.
Lemma retype_id k n t : (forall q, In q (type_refs t) -> key_of q <> k) -> retype k n t = t.
Proof.
  induction t as [e IH|fs IH|c t IH|t Ha Hs Hb] using sqltype_rec'; intros Hq.
  - simpl. f_equal. apply IH. exact Hq.
  - rewrite retype_struct. f_equal. rewrite type_refs_struct in Hq.
    induction fs as [|[[a u] b] r IHr]; [reflexivity|]. simpl in *. inversion IH; subst. f_equal.
    + f_equal. f_equal. match goal with X : (forall _, _) -> retype _ _ _ = _ |- _ => apply X end. intros q Iq. apply Hq. apply in_or_app. now left.
    + apply IHr; [assumption|]. intros q Iq. apply Hq. apply in_or_app. now right.
  - simpl. f_equal. apply IH. exact Hq.
  - destruct t; try reflexivity; try (exfalso; (eapply Ha + eapply Hs + eapply Hb); reflexivity).
    match goal with q : qid |- _ => destruct q end; simpl; [| |reflexivity]; (rewrite decide_False; [reflexivity|]); apply Hq; now left.
Qed.

Section Soft.
  (** the keys of types that are renamed away *)
  Variable K : okey -> Prop.
  Definition free (t : sqltype) : Prop := forall q, In q (type_refs t) -> ~ K (key_of q).
  Definition soft1 (o o' : option dbobj) : Prop := exists k n, K k /\ o' = retype_obj k n <$> o.
  Definition soft : option dbobj -> option dbobj -> Prop := rtc soft1.
  #[global] Instance soft_preorder : PreOrder soft.
  Proof. apply _. Qed.

  Lemma retype_free k n t : K k -> free t -> retype k n t = t.
  Proof. intros Hk Hf. apply retype_id. intros q Iq E. apply (Hf q Iq). now rewrite E. Qed.

  Definition free_obj (o : dbobj) : Prop :=
    match o with
    | OEnum _ => True
    | OStruct ms _ => forall n t, ms !! n = Some t -> free t
    | OTable tb => forall n c, dt_cols tb !! n = Some c -> free (dc_type c)
    end.
  Lemma retype_free_obj k n o : K k -> free_obj o -> retype_obj k n o = o.
  Proof.
    intros Hk Hf. destruct o as [vs|ms c|tb]; simpl in *; [reflexivity| |].
    - f_equal. apply map_eq. intros i. rewrite lookup_fmap. destruct (ms !! i) eqn:E; simpl; [|reflexivity].
      f_equal. apply retype_free; eauto.
    - f_equal. destruct tb as [cs pk ks cm]. unfold set_cols. simpl in *. f_equal.
      apply map_eq. intros i. rewrite lookup_fmap. destruct (cs !! i) as [c|] eqn:E; simpl; [|reflexivity].
      f_equal. rewrite retype_free; eauto. now destruct c.
  Qed.
  Lemma soft_none o : soft None o -> o = None.
  Proof. intros H. remember None as a eqn:Ea. induction H as [a|a b c (k & n & _ & ->) _ IH]; [auto|]. subst. now apply IH. Qed.
  Lemma soft_free o o' : free_obj o -> soft (Some o) o' -> o' = Some o.
  Proof.
    intros Hf H. remember (Some o) as a eqn:Ea. induction H as [a|a b c (k & n & Hk & ->) _ IH]; [auto|]. subst.
    assert (E : retype_obj k n <$> Some o = Some o) by (simpl; now rewrite retype_free_obj).
    rewrite (IH E). exact E.
  Qed.
  Lemma soft_some o o' : soft (Some o) o' -> exists x, o' = Some x /\ is_type x = is_type o
     /\ (forall vs, o = OEnum vs -> x = o)
     /\ (forall ms c, o = OStruct ms c -> exists ms', x = OStruct ms' c /\ (forall n t, ms !! n = Some t -> exists t', ms' !! n = Some t' /\ (free t -> t' = t))
                      /\ forall n, is_Some (ms !! n) <-> is_Some (ms' !! n))
     /\ (forall tb, o = OTable tb -> exists tb', x = OTable tb' /\ rest tb' = rest tb
           /\ (forall n c, dt_cols tb !! n = Some c -> exists ty, dt_cols tb' !! n = Some (with_type ty c) /\ (free (dc_type c) -> ty = dc_type c))
           /\ forall n, is_Some (dt_cols tb !! n) <-> is_Some (dt_cols tb' !! n)).
  Proof.
    intros H. remember (Some o) as a eqn:Ea. revert o Ea.
    induction H as [a|a b c (k & nn & Hk & ->) _ IH]; intros o ->.
    - exists o. split; [reflexivity|]. split; [reflexivity|]. split; [auto|]. split.
      + intros ms c ->. exists ms. split; [reflexivity|]. split; [eauto|]. reflexivity.
      + intros tb ->. exists tb. split; [reflexivity|]. split; [reflexivity|]. split; [|reflexivity].
        intros n c Hc. exists (dc_type c). split; [|auto]. now destruct c.
    - simpl in IH. destruct (IH _ eq_refl) as (x & -> & H1 & H2 & H3 & H4). exists x. split; [reflexivity|].
      split; [rewrite H1; now destruct o|]. split; [|split].
      + intros vs ->. simpl in H2. now apply (H2 vs).
      + intros ms cc ->. simpl in H3. destruct (H3 _ _ eq_refl) as (ms' & -> & P1 & P2). exists ms'. split; [reflexivity|]. split.
        * intros n t Hn. destruct (P1 n (retype k nn t)) as (t' & Q1 & Q2).
          { rewrite lookup_fmap, Hn. reflexivity. }
          exists t'. split; [exact Q1|]. intros Hf. rewrite (retype_free _ _ _ Hk Hf) in Q2. now apply Q2.
        * intros n. rewrite <- P2. rewrite lookup_fmap, fmap_is_Some. reflexivity.
      + intros tb ->. simpl in H4. destruct (H4 _ eq_refl) as (tb' & -> & P1 & P2 & P3). exists tb'. split; [reflexivity|].
        split; [rewrite P1; reflexivity|]. split.
        * intros n c Hn. destruct (P2 n (with_type (retype k nn (dc_type c)) c)) as (ty & Q1 & Q2).
          { simpl. rewrite lookup_fmap, Hn. reflexivity. }
          exists ty. split; [rewrite Q1; reflexivity|]. intros Hf. rewrite (retype_free _ _ _ Hk Hf) in Q2. now apply Q2.
        * intros n. rewrite <- P3. simpl. rewrite lookup_fmap, fmap_is_Some. reflexivity.
  Qed.
End Soft.
