(** The topological sort of the catalog. *)
From Verif Require Import PyStr QuoteModel ObjectDict Types Objects TopoSpec.
From Coq Require Import String Relations Lia Arith List.
Import ListNotations.
Open Scope list_scope.

Lemma str_in_iff x l : str_in x l = true <-> In x l.
Proof.
  unfold str_in. rewrite existsb_exists. split.
  - intros (y & I & E). apply String.eqb_eq in E. now subst.
  - intros I. exists x. split; [exact I|]. apply String.eqb_refl.
Qed.
Lemma str_in_false x l : str_in x l = false <-> ~ In x l.
Proof. rewrite <- str_in_iff. destruct (str_in x l); split; congruence. Qed.

Section Topo.
  Variable succ : string -> list string.
  Variable nodes : list string.
  Hypothesis Nd : NoDup nodes.
  Hypothesis Closed : forall n m, In n nodes -> In m (succ n) -> In m nodes.

  Fixpoint chain (n : string) (path : list string) : Prop :=
    match path with [] => True | p :: r => edge succ p n /\ chain p r end.
  Lemma chain_tc path : forall n x, chain n path -> In x path -> clos_trans _ (edge succ) x n.
  Proof.
    induction path as [|p r IH]; simpl; intros n x H Hx; [contradiction|]; destruct H as [H1 H2]; destruct Hx as [<-|Hx].
    - now apply t_step.
    - eapply t_trans; [apply (IH p x H2 Hx)|now apply t_step].
  Qed.

  Definition good (st : list string) : Prop :=
    NoDup st /\ incl st nodes /\ forall l1 n l2, st = l1 ++ n :: l2 -> forall m, edge succ n m -> In m l1.
  Lemma good_snoc st n : good st -> In n nodes -> ~ In n st -> (forall m, edge succ n m -> In m st) -> good (st ++ [n]).
  Proof.
    intros (G1 & G2 & G3) I N H. split; [|split].
    - apply NoDup_Add with (a := n) (l := st); [|now split]. rewrite <- (app_nil_r st) at 1. apply Add_app.
    - intros x Hx. apply in_app_or in Hx as [Hx|[<-|[]]]; auto.
    - intros l1 x l2 E m Hm. destruct (list_eq_dec string_dec l2 []) as [->|Hl].
      + apply app_inj_tail in E as [-> ->]. now apply H.
      + destruct (exists_last Hl) as (l3 & y & ->). rewrite app_comm_cons, app_assoc in E. apply app_inj_tail in E as [E _].
        now apply (G3 l1 x l3).
  Qed.

  Definition spec (path : list string) (n : string) (st : list string) (r : res (list string)) : Prop :=
    match r with
    | Ok st' => good st' /\ incl st st' /\ In n st' /\ forall x, In x path -> ~ In x st'
    | Err e => e = "RuntimeError"%string /\ cyclic succ nodes
    end.

  Lemma visit_spec : forall fuel path n st,
    NoDup path -> incl path nodes -> In n nodes -> good st -> (forall x, In x path -> ~ In x st) ->
    chain n path -> length nodes < length path + fuel -> spec path n st (visit succ fuel path n st).
  Proof.
    induction fuel as [|f IH]; intros path n st Np Ip In_ G Hp Hc Hf.
    - exfalso. rewrite Nat.add_0_r in Hf. apply (NoDup_incl_length Np) in Ip. lia.
    - simpl. destruct (str_in n st) eqn:E1.
      { apply str_in_iff in E1. simpl. split; [exact G|]. split; [intros x; auto|]. split; [exact E1|exact Hp]. }
      apply str_in_false in E1. destruct (str_in n path) eqn:E2.
      { apply str_in_iff in E2. simpl. split; [reflexivity|]. exists n. split; [exact In_|]. eapply chain_tc; eauto. }
      apply str_in_false in E2.
      assert (L : forall ms st0, incl ms (succ n) -> good st0 -> (forall x, In x (n :: path) -> ~ In x st0) ->
        match (fix go (ms st : list string) {struct ms} : res (list string) :=
                 match ms with
                 | [] => Ok st
                 | m :: r => if String.eqb m n then go r st else bind (visit succ f (n :: path) m st) (fun st' => go r st')
                 end) ms st0 with
        | Ok st' => good st' /\ incl st0 st' /\ (forall m, In m ms -> m <> n -> In m st') /\ forall x, In x (n :: path) -> ~ In x st'
        | Err e => e = "RuntimeError"%string /\ cyclic succ nodes
        end).
      { induction ms as [|m ms IHm]; intros st0 Hi G0 H0.
        - split; [exact G0|]. split; [intros x; auto|]. split; [intros m []|exact H0].
        - destruct (String.eqb_spec m n) as [->|Nm].
          + specialize (IHm st0 (fun x I => Hi x (or_intror I)) G0 H0). revert IHm. match goal with |- context [match ?z with _ => _ end] => destruct z as [st1|e] end; [|auto].
            intros (A1 & A2 & A3 & A4). split; [exact A1|]. split; [exact A2|]. split; [|exact A4].
            intros m [<-|Im] N'; [congruence|auto].
          + assert (V : spec (n :: path) m st0 (visit succ f (n :: path) m st0)).
            { apply IH; auto.
              - now constructor.
              - intros x [<-|Ix]; auto.
              - apply (Closed n); [exact In_|]. apply Hi. now left.
              - simpl. split; [|exact Hc]. split; [apply Hi; now left|exact Nm].
              - simpl. lia. }
            destruct (visit succ f (n :: path) m st0) as [st1|e]; cbn [bind]; [|exact V]. cbn [spec] in V. destruct V as (V1 & V2 & V3 & V4).
            specialize (IHm st1 (fun x I => Hi x (or_intror I)) V1 V4). revert IHm. match goal with |- context [match ?z with _ => _ end] => destruct z as [st2|e] end; [|auto].
            intros (A1 & A2 & A3 & A4). split; [exact A1|]. split; [intros x Ix; auto|]. split; [|exact A4].
            intros x [<-|Ix] N'; auto. }
      assert (Hn : forall x, In x (n :: path) -> ~ In x st) by (intros x [<-|Ix]; auto).
      specialize (L (succ n) st (fun x I => I) G Hn). revert L.
      match goal with |- context [match ?z with _ => _ end] => destruct z as [st1|e] end; cbn [bind spec]; [|auto].
      intros (A1 & A2 & A3 & A4). assert (Nn : ~ In n st1) by (apply A4; now left). split; [|split; [|split]].
      + apply good_snoc; auto. intros m [M1 M2]. auto.
      + intros x Ix. apply in_or_app. left. auto.
      + apply in_or_app. right. now left.
      + intros x Ix Z. apply in_app_or in Z as [Z|[<-|[]]]; [|contradiction]. revert Z. apply A4. now right.
  Qed.

  Lemma visit_all_spec ns : forall st, incl ns nodes -> good st ->
    match visit_all succ (S (length nodes)) ns st with
    | Ok st' => good st' /\ incl st st' /\ incl ns st'
    | Err e => e = "RuntimeError"%string /\ cyclic succ nodes
    end.
  Proof.
    induction ns as [|n ns IH]; intros st Hi G; cbn [visit_all].
    - split; [exact G|]. split; intros x; auto. intros [].
    - assert (V : spec [] n st (visit succ (S (length nodes)) [] n st)).
      { apply visit_spec; [apply NoDup_nil|intros x []|apply Hi; now left|exact G|intros x []|exact Logic.I|simpl; lia]. }
      destruct (visit succ (S (length nodes)) [] n st) as [st1|e]; cbn [bind]; [|exact V]. destruct V as (V1 & V2 & V3 & _).
      specialize (IH st1 (fun x I => Hi x (or_intror I)) V1). destruct (visit_all succ (S (length nodes)) ns st1) as [st2|e]; [|exact IH].
      destruct IH as (A1 & A2 & A3). split; [exact A1|]. split; intros x Ix; [auto|]. destruct Ix as [<-|Ix]; auto.
  Qed.

  Theorem topological_sort_correct :
    match topological_sort nodes succ with
    | Ok l => topo_order succ nodes l
    | Err e => e = "RuntimeError"%string /\ cyclic succ nodes
    end.
  Proof.
    unfold topological_sort. assert (H := visit_all_spec nodes [] (fun x I => I)).
    destruct (visit_all succ (S (length nodes)) nodes []) as [l|e].
    - destruct H as ((G1 & G2 & G3) & _ & H).
      { split; [constructor|]. split; [intros x []|]. intros l1 n l2 E. destruct l1; discriminate. }
      split; [exact G1|]. split; [|exact G3]. intros n. split; auto.
    - apply H. split; [constructor|]. split; [intros x []|]. intros l1 n l2 E. destruct l1; discriminate.
  Qed.

  (** an order excludes cycles (other than self-references) among the nodes *)
  Fixpoint idx (n : string) (l : list string) : nat :=
    match l with [] => 0 | x :: r => if String.eqb x n then 0 else S (idx n r) end.
  Lemma idx_app n l1 l2 : ~ In n l1 -> idx n (l1 ++ n :: l2) = length l1.
  Proof.
    induction l1 as [|x l IH]; simpl; intros N; [now rewrite String.eqb_refl|].
    destruct (String.eqb_spec x n) as [->|]; [tauto|]. rewrite IH; tauto.
  Qed.
  Lemma edge_before l n m : topo_order succ nodes l -> In n nodes -> edge succ n m -> idx m l < idx n l.
  Proof.
    intros (H1 & H2 & H3) I E. apply H2 in I. apply in_split in I as (a & b & ->).
    assert (Im := H3 a n b eq_refl m E). apply in_split in Im as (a1 & a2 & ->).
    assert (N1 : ~ In n (a1 ++ m :: a2)).
    { apply NoDup_remove_2 in H1. intros Z. apply H1. apply in_or_app. now left. }
    rewrite (idx_app n _ b N1). rewrite <- app_assoc in *. simpl in *.
    rewrite idx_app; [rewrite app_length; simpl; lia|].
    apply NoDup_remove_2 in H1. intros Z. apply H1. apply in_or_app. now left.
  Qed.
  Theorem topo_acyclic l : topo_order succ nodes l -> ~ cyclic succ nodes.
  Proof.
    intros H (n & In_ & C).
    assert (G : forall a b, clos_trans _ (edge succ) a b -> In a nodes -> In b nodes /\ idx b l < idx a l).
    { induction 1 as [a b E|a b c _ IH1 _ IH2]; intros Ia.
      - split; [eapply Closed; [exact Ia|apply E]|now apply edge_before].
      - destruct (IH1 Ia) as [Ib L1]. destruct (IH2 Ib) as [Ic L2]. split; [exact Ic|lia]. }
    destruct (G n n C In_). lia.
  Qed.
End Topo.
