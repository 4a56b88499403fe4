(** Generic lemmas: executing a list of programs, each of which changes one key of a state. *)
From Verif Require Import PyStr.
From stdpp Require Import gmap strings.

Section Find.
  Context {A K : Type} `{EqDecision K} (key : A -> K).
  Fixpoint find_by (k : K) (l : list A) : option A :=
    match l with [] => None | x :: r => if decide (key x = k) then Some x else find_by k r end.

  Lemma find_by_some k l x : find_by k l = Some x -> In x l /\ key x = k.
  Proof.
    induction l as [|y l IH]; simpl; [discriminate|]. case_decide; [intros [= ->]; auto|].
    intros H1. destruct (IH H1). auto.
  Qed.
  Lemma find_by_none k l : find_by k l = None <-> ~ In k (map key l).
  Proof.
    induction l as [|y l IH]; simpl; [tauto|]. case_decide; [split; [discriminate|tauto]|].
    rewrite IH. tauto.
  Qed.
  Lemma find_by_in l x : base.NoDup (map key l) -> In x l -> find_by (key x) l = Some x.
  Proof.
    induction l as [|y l IH]; simpl; [contradiction|]. intros W [->|H].
    - rewrite decide_True; reflexivity.
    - apply NoDup_cons in W as [N W]. rewrite decide_False; [auto|].
      intros E. apply N. rewrite E. apply elem_of_list_In, in_map, H.
  Qed.
  Lemma find_by_app k l1 l2 :
    find_by k (l1 ++ l2)%list = match find_by k l1 with Some x => Some x | None => find_by k l2 end.
  Proof. induction l1 as [|x l IH]; simpl; [reflexivity|]. case_decide; auto. Qed.
End Find.

Section Run.
  Context {I St : Type} (step : I -> St -> option St).
  Fixpoint run (l : list I) (s : St) : option St :=
    match l with [] => Some s | i :: r => s' ← step i s; run r s' end.
  Lemma run_app l1 l2 s : run (l1 ++ l2)%list s = (s' ← run l1 s; run l2 s').
  Proof. revert s. induction l1 as [|i l IH]; intros s; simpl; [reflexivity|]. destruct (step i s); simpl; auto. Qed.

  Context {A K V R : Type} `{EqDecision K} (key : A -> K) (get : St -> K -> option V) (rest : St -> R).
  Lemma phase_inv (Inv : St -> Prop) (prog : A -> list I) (post : A -> option V) (pre : A -> option V -> Prop) l s :
    base.NoDup (map key l) -> Inv s ->
    (forall x s', In x l -> rest s' = rest s -> Inv s' -> pre x (get s' (key x)) ->
       (forall k, In k (map key l) \/ get s' k = get s k) ->
       exists s'', run (prog x) s' = Some s'' /\ rest s'' = rest s' /\ Inv s'' /\ get s'' (key x) = post x
                   /\ forall k, k <> key x -> get s'' k = get s' k) ->
    (forall x, In x l -> pre x (get s (key x))) ->
    exists s', run (concat (map prog l)) s = Some s' /\ rest s' = rest s /\ Inv s'
               /\ forall k, get s' k = match find_by key k l with Some x => post x | None => get s k end.
  Proof.
    intros W V0 H P.
    assert (G : forall l2 l1 s1, l = (l1 ++ l2)%list -> rest s1 = rest s -> Inv s1 ->
              (forall k, get s1 k = match find_by key k l1 with Some x => post x | None => get s k end) ->
              exists s', run (concat (map prog l2)) s1 = Some s' /\ rest s' = rest s /\ Inv s'
               /\ forall k, get s' k = match find_by key k l with Some x => post x | None => get s k end).
    { induction l2 as [|x l2 IH]; intros l1 s1 E R1 V1 G1.
      - exists s1. rewrite app_nil_r in E. subst l1. simpl. auto.
      - assert (N1 : find_by key (key x) l1 = None).
        { apply find_by_none. intros Hin. subst l. rewrite map_app in W. apply NoDup_app in W as (_ & W & _).
          apply (W (key x)). - now apply elem_of_list_In. - simpl. apply elem_of_list_here. }
        assert (Ix : In x l) by (subst l; apply in_or_app; right; left; reflexivity).
        destruct (H x s1 Ix R1 V1) as (s2 & Hr & R2 & V2 & G2 & F2).
        + rewrite G1, N1. now apply P.
        + intros k. rewrite G1. destruct (find_by key k l1) as [y|] eqn:Ey; [|now right].
          left. apply find_by_some in Ey as [Iy <-]. apply in_map. subst l. apply in_or_app. now left.
        + simpl. rewrite run_app, Hr. simpl.
          apply (IH (l1 ++ [x])%list s2).
          * rewrite <- app_assoc. exact E.
          * congruence.
          * exact V2.
          * intros k. rewrite find_by_app. simpl. destruct (decide (key x = k)) as [<-|D].
            -- rewrite N1. exact G2.
            -- rewrite F2 by congruence. rewrite G1. now destruct (find_by key k l1). }
    apply (G l [] s); auto.
  Qed.
  Lemma phase (prog : A -> list I) (post : A -> option V) (pre : A -> option V -> Prop) l s :
    base.NoDup (map key l) ->
    (forall x s', In x l -> rest s' = rest s -> pre x (get s' (key x)) ->
       (forall k, In k (map key l) \/ get s' k = get s k) ->
       exists s'', run (prog x) s' = Some s'' /\ rest s'' = rest s' /\ get s'' (key x) = post x
                   /\ forall k, k <> key x -> get s'' k = get s' k) ->
    (forall x, In x l -> pre x (get s (key x))) ->
    exists s', run (concat (map prog l)) s = Some s' /\ rest s' = rest s
               /\ forall k, get s' k = match find_by key k l with Some x => post x | None => get s k end.
  Proof.
    intros W H P. destruct (phase_inv (fun _ => True) prog post pre l s W) as (s' & ? & ? & _ & ?); auto.
    - intros x s' Ix Rx _ Hp Hk. destruct (H x s' Ix Rx Hp Hk) as (s2 & ? & ? & ? & ?). eauto 10.
    - eauto.
  Qed.
End Run.
