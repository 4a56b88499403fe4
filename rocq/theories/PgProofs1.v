(** Proofs about the PostgreSQL explorer: joins, sorting, grouping. *)
From Verif Require Import PyStr QuoteModel QuoteSpec QuoteProofs ObjectDict ObjectDictProofs Types Objects Factory Discover PgExplore.
From Coq Require Import List String Sorted Permutation Lia.
Import ListNotations.
Open Scope list_scope.

Lemma append_nil s : (s ++ "")%string = s.
Proof. induction s as [|c s IH]; [reflexivity|]. cbn. now rewrite IH. Qed.
Lemma is_literal_quote v s : is_literal v (quote s) = String.eqb v s.
Proof. unfold is_literal. replace (quote s) with (quote s ++ "")%string by apply append_nil. rewrite quote_scan by apply not_begins_nil. reflexivity. Qed.

Section Lists.
  Context {A B : Type}.
  Lemma flat_map_nil (f : A -> list B) l : (forall x, In x l -> f x = []) -> flat_map f l = [].
  Proof. induction l as [|x l IH]; intros H; [reflexivity|]. simpl. rewrite H by now left. apply IH. intros y I. apply H. now right. Qed.
  Lemma flat_map_one (f : A -> list B) l x : NoDup l -> In x l -> (forall y, In y l -> y <> x -> f y = []) -> flat_map f l = f x.
  Proof.
    induction l as [|y l IH]; intros N I H; [destruct I|]. inversion N; subst. simpl. destruct I as [->|I].
    - rewrite (flat_map_nil f l), app_nil_r; [reflexivity|]. intros z Z. apply H; [now right|]. intros ->. contradiction.
    - rewrite (H y); [|now left|intros ->; contradiction]. apply IH; auto. intros z Z. apply H. now right.
  Qed.
  Lemma flat_map_in (f g : A -> list B) l : (forall x, In x l -> f x = g x) -> flat_map f l = flat_map g l.
  Proof. induction l as [|x l IH]; intros H; [reflexivity|]. simpl. rewrite H by now left. f_equal. apply IH. intros y I. apply H. now right. Qed.
  Lemma keyed_nodup {K} (key : A -> K) l : NoDup (map key l) -> NoDup l.
  Proof. apply NoDup_map_inv. Qed.
  Lemma keyed_eq {K} (key : A -> K) l x y : NoDup (map key l) -> In x l -> In y l -> key x = key y -> x = y.
  Proof.
    induction l as [|z l IH]; intros N Ix Iy E; [destruct Ix|]. cbn in N. inversion N as [|? ? H1 H2]; subst.
    destruct Ix as [->|Ix], Iy as [->|Iy]; auto; exfalso; apply H1; [rewrite E|rewrite <- E]; now apply in_map.
  Qed.
  (** a join on the key of a table, of which [x] is the only partner *)
  Lemma join_one {K} (key : A -> K) (c : A -> bool) (f : A -> list B) l x :
    NoDup (map key l) -> In x l -> c x = true -> (forall y, In y l -> c y = true -> key y = key x) ->
    flat_map (fun y => if c y then f y else []) l = f x.
  Proof.
    intros N I C U. rewrite (flat_map_one _ l x (keyed_nodup key l N) I); [now rewrite C|].
    intros y Iy D. destruct (c y) eqn:Cy; [|reflexivity]. exfalso. apply D. apply (keyed_eq key l); auto.
  Qed.
  Lemma filter_one {K} (key : A -> K) (c : A -> bool) l x :
    NoDup (map key l) -> In x l -> c x = true -> (forall y, In y l -> c y = true -> key y = key x) -> filter c l = [x].
  Proof.
    intros N I C U. induction l as [|y l IH]; [destruct I|]. cbn in N. inversion N as [|? ? H1 H2]; subst. cbn [filter]. destruct I as [->|I].
    - rewrite C. f_equal. destruct (filter c l) as [|z r] eqn:E; [reflexivity|]. exfalso. assert (Z : In z (filter c l)) by (rewrite E; now left).
      apply filter_In in Z as [Z1 Z2]. apply H1. rewrite <- (U z (or_intror Z1) Z2). now apply in_map.
    - destruct (c y) eqn:Cy.
      + exfalso. apply H1. rewrite (U y (or_introl eq_refl) Cy). now apply in_map.
      + apply IH; auto. intros z Z. apply U. now right.
  Qed.
  Lemma filter_none (c : A -> bool) l : (forall y, In y l -> c y = false) -> filter c l = [].
  Proof. induction l as [|y l IH]; intros H; [reflexivity|]. cbn. rewrite H by now left. apply IH. intros z Z. apply H. now right. Qed.
  Lemma left_one {K} (key : A -> K) (c : A -> bool) l x :
    NoDup (map key l) -> In x l -> c x = true -> (forall y, In y l -> c y = true -> key y = key x) -> left_join c l = [Some x].
  Proof. intros N I C U. unfold left_join. now rewrite (filter_one key c l x N I C U). Qed.
  Lemma left_none (c : A -> bool) l : (forall y, In y l -> c y = false) -> left_join c l = [None].
  Proof. intros H. unfold left_join. now rewrite filter_none. Qed.
  Lemma left_split {K} (key : A -> K) (c : A -> bool) l : NoDup (map key l) -> (forall x y, In x l -> In y l -> c x = true -> c y = true -> key y = key x) ->
    (exists x, In x l /\ c x = true /\ left_join c l = [Some x]) \/ ((forall x, In x l -> c x = false) /\ left_join c l = [None]).
  Proof.
    intros N U. destruct (filter c l) as [|x r] eqn:E.
    - right. assert (H : forall x, In x l -> c x = false). { intros x I. destruct (c x) eqn:C; [|reflexivity]. exfalso. assert (Z : In x (filter c l)) by now apply filter_In. rewrite E in Z. destruct Z. }
      split; [exact H|]. now apply left_none.
    - left. assert (Z : In x (filter c l)) by (rewrite E; now left). apply filter_In in Z as [I C]. exists x. split; [exact I|]. split; [exact C|].
      apply (left_one key); auto.
  Qed.
  Lemma rows_forall2 (p : A -> bool) (f : A -> list B) (R : A -> B -> Prop) l :
    (forall a, In a l -> p a = true -> exists x, f a = [x] /\ R a x) -> (forall a, In a l -> p a = false -> f a = []) -> Forall2 R (filter p l) (flat_map f l).
  Proof.
    induction l as [|a l IH]; intros H1 H2; [constructor|]. cbn [filter flat_map]. destruct (p a) eqn:E.
    - destruct (H1 a (or_introl eq_refl) E) as (x & -> & X). cbn. constructor; [exact X|]. apply IH; [intros b I; apply H1; now right|intros b I; apply H2; now right].
    - rewrite (H2 a (or_introl eq_refl) E). cbn. apply IH; [intros b I; apply H1; now right|intros b I; apply H2; now right].
  Qed.
  Lemma filter_flat_map (p : B -> bool) (f : A -> list B) l : filter p (flat_map f l) = flat_map (fun a => filter p (f a)) l.
  Proof. induction l as [|a l IH]; [reflexivity|]. cbn. now rewrite filter_app, IH. Qed.
  Lemma map_flat_map {C} (g : B -> C) (f : A -> list B) l : map g (flat_map f l) = flat_map (fun a => map g (f a)) l.
  Proof. induction l as [|a l IH]; [reflexivity|]. cbn. now rewrite map_app, IH. Qed.
  Lemma forall2_in_r (R : A -> B -> Prop) l m y : Forall2 R l m -> In y m -> exists x, In x l /\ R x y.
  Proof. induction 1 as [|a b l m H F IH]; intros I; [destruct I|]. destruct I as [->|I]; [exists a; split; [now left|exact H]|]. destruct (IH I) as (x & I' & X). exists x. split; [now right|exact X]. Qed.
  Lemma forall2_in_l (R : A -> B -> Prop) l m x : Forall2 R l m -> In x l -> exists y, In y m /\ R x y.
  Proof. induction 1 as [|a b l m H F IH]; intros I; [destruct I|]. destruct I as [->|I]; [exists b; split; [now left|exact H]|]. destruct (IH I) as (y & I' & X). exists y. split; [now right|exact X]. Qed.
  Lemma forall2_keys {K} (R : A -> B -> Prop) (ka : A -> K) (kb : B -> K) l m : (forall a b, R a b -> kb b = ka a) -> Forall2 R l m -> map kb m = map ka l.
  Proof. intros H. induction 1 as [|a b l m X F IH]; [reflexivity|]. cbn. now rewrite (H _ _ X), IH. Qed.
  Lemma forall2_perm (R : A -> B -> Prop) l m m' : Forall2 R l m -> Permutation m m' -> exists l', Permutation l l' /\ Forall2 R l' m'.
  Proof.
    intros F Pm. revert l F. induction Pm as [|x m m' Pm IH|x y m|m m1 m2 P1 IH1 P2 IH2]; intros l F.
    - inversion F; subst. exists []. split; constructor.
    - inversion F as [|a b l0 m0 X F0]; subst. destruct (IH _ F0) as (l' & P' & F'). exists (a :: l'). split; [now constructor|now constructor].
    - inversion F as [|a b l0 m0 X F0]; subst. inversion F0 as [|a' b' l1 m1 X' F1]; subst. exists (a' :: a :: l1). split; [constructor|]. constructor; [exact X'|]. constructor; [exact X|exact F1].
    - destruct (IH1 _ F) as (l1 & Q1 & F1). destruct (IH2 _ F1) as (l2 & Q2 & F2). exists l2. split; [now transitivity l1|exact F2].
  Qed.
End Lists.

Section Sorting.
  Context {A : Type} (le : A -> A -> bool).
  Lemma insert_perm' x l : Permutation (x :: l) (insert_by le x l).
  Proof. induction l as [|y l IH]; [reflexivity|]. cbn. destruct (le x y); [reflexivity|]. rewrite <- IH. apply perm_swap. Qed.
  Lemma sort_perm' l : Permutation l (sort_by le l).
  Proof. induction l as [|x l IH]; [reflexivity|]. cbn. rewrite <- insert_perm'. now constructor. Qed.
  Hypothesis le_total : forall x y, le x y = true \/ le y x = true.
  Hypothesis le_trans : forall x y z, le x y = true -> le y z = true -> le x z = true.
  Lemma insert_sorted' x l : StronglySorted (fun a b => le a b = true) l -> StronglySorted (fun a b => le a b = true) (insert_by le x l).
  Proof.
    induction 1 as [|y l S IH F]; [repeat constructor|]. cbn. destruct (le x y) eqn:E.
    - constructor; [now constructor|]. constructor; [exact E|]. rewrite Forall_forall in *. intros z Z. exact (le_trans _ _ _ E (F z Z)).
    - constructor; [exact IH|]. assert (G : le y x = true) by (destruct (le_total x y); congruence). rewrite Forall_forall in *. intros z Z.
      assert (Z' : In z (x :: l)) by (rewrite insert_perm'; exact Z). destruct Z' as [<-|Z']; auto.
  Qed.
  Lemma sort_sorted' l : StronglySorted (fun a b => le a b = true) (sort_by le l).
  Proof. induction l as [|x l IH]; [constructor|]. cbn. now apply insert_sorted'. Qed.
End Sorting.

(** lists with keys *)
Section Keyed.
  Context {A K : Type} (key : A -> K).
  Lemma perm_by_key (l m : list A) : NoDup (map key l) -> NoDup (map key m) -> (forall x, In x l -> In x m) -> (forall x, In x m -> In (key x) (map key l)) -> Permutation l m.
  Proof.
    intros N1 N2 S1 S2. apply NoDup_Permutation; [now apply NoDup_map_inv in N1|now apply NoDup_map_inv in N2|]. intros x. split; [apply S1|].
    intros I. destruct (proj1 (in_map_iff _ _ _) (S2 x I)) as (y & E & Iy). now rewrite <- (keyed_eq key m y x N2 (S1 y Iy) I E).
  Qed.
End Keyed.
Lemma eqb_by_key {A} (key : A -> string) (eqA : A -> A -> bool) (l m : list A) :
  NoDup (map key l) -> NoDup (map key m) -> (forall x, In x l -> exists y, In y m /\ key y = key x /\ eqA x y = true) -> (forall y, In y m -> In (key y) (map key l)) ->
  od_eqb key eqA l m = true.
Proof.
  intros N1 N2 S1 S2. unfold od_eqb. apply andb_true_iff. split.
  - apply Nat.eqb_eq. rewrite <- (map_length key l), <- (map_length key m). apply Permutation_length. apply NoDup_Permutation; auto. intros k. split; intros I.
    + apply in_map_iff in I as (x & <- & I). destruct (S1 x I) as (y & Iy & E & _). rewrite <- E. now apply in_map.
    + apply in_map_iff in I as (y & <- & I). now apply S2.
  - apply forallb_forall. intros x I. destruct (S1 x I) as (y & Iy & E & Q). rewrite <- E, (get_in key m y N2 Iy). exact Q.
Qed.
Lemma map_res_forall2 {A B} (f : A -> res B) l r : map_res f l = Ok r <-> Forall2 (fun a b => f a = Ok b) l r.
Proof.
  split; [exact (map_res_ok f l r)|]. induction 1 as [|a b l r H F IH]; [reflexivity|]. cbn. rewrite H. cbn. rewrite IH. reflexivity.
Qed.
Lemma map_res_total {A B} (f : A -> res B) l : (forall a, In a l -> exists b, f a = Ok b) -> exists r, map_res f l = Ok r /\ Forall2 (fun a b => f a = Ok b) l r.
Proof.
  intros H. enough (E : exists r, Forall2 (fun a b => f a = Ok b) l r). { destruct E as (r & F). exists r. split; [now apply map_res_forall2|exact F]. }
  induction l as [|a l IH]; [exists []; constructor|]. destruct (H a (or_introl eq_refl)) as (b & E). destruct IH as (r & F); [intros x I; apply H; now right|]. exists (b :: r). now constructor.
Qed.
