(** C29: unification of types. *)
From Verif Require Import PyStr QuoteModel Types Compat CompatSpec CompatProofs.
From Coq Require Import Permutation.
Open Scope Z_scope.
Open Scope list_scope.

(** The common type holds every value of each listed type; an unsigned integer type must be narrower than the result,
    or all types the same. *)
Theorem C29_lossless : forall l t, compatible_type l = Ok t -> (forall u, In u l -> width_ok u) ->
  (forall u, In u l -> is_unsigned u -> width_of u < width_of t \/ forall u', In u' l -> u' = u) ->
  forall u v, In u l -> holds u v -> holds t v.
Proof.
  intros [|x l] t; [discriminate|]. cbn [compatible_type]. intros E W N u v I H.
  destruct (reduce_bound l x t E) as [[A ->]|B].
  - destruct I as [->|I]; [exact H|]. now rewrite <- (A u I).
  - assert (D : (forall u', In u' (x :: l) -> u' = u) \/ (is_unsigned u -> width_of u < width_of t)).
    { destruct (base_type u) eqn:U; try (right; unfold is_unsigned; rewrite U; intros []; fail). destruct signed; [right; unfold is_unsigned; rewrite U; discriminate|].
      destruct (N u I) as [X|X]; [unfold is_unsigned; rewrite U; reflexivity|right; auto|left; exact X]. }
    destruct D as [D|D]; [|exact (ble_holds u t v (B u I) (W u I) D H)].
    assert (X : t = u); [|now rewrite X]. rewrite (D x (or_introl eq_refl)) in E. clear - E D.
    assert (A : forall y, In y l -> y = u) by (intros y J; apply D; now right). clear D. revert E. induction l as [|y l IH]; cbn; [congruence|].
    rewrite (A y (or_introl eq_refl)). unfold compat2. assert (X : type_eqb u u = true) by now apply type_eqb_eq. rewrite X. cbn. apply IH. intros z J. apply A. now right.
Qed.
Print Assumptions C29_lossless.

(** The answer does not depend on the order of the list. *)
Theorem C29_order_independent : forall l l', one_engine l -> no_bare_int l -> Permutation l l' -> compatible_type l = compatible_type l'.
Proof. exact order_independent. Qed.
Print Assumptions C29_order_independent.

(** Unification is refused exactly if the types are of different families (and are not all the same type). *)
Inductive family : Type := FInt | FNumber | FText | FBytes.
Definition family_of (t : sqltype) : option family :=
  match kind_of t with
  | Some KInt => Some FInt | Some (KReal | KDouble) => Some FNumber | Some (KFixChar | KVarChar) => Some FText | Some (KFixBin | KVarBin) => Some FBytes
  | None => None
  end.
Lemma same_class_total t u : ~ In OraInt (classes t) -> exists r, same_class t u = Ok r.
Proof. intros N. rewrite same_class_ok by exact N. eauto. Qed.
Lemma same_class_classes t u r : (forall c v, u <> TSub c v) -> same_class t u = Ok r -> classes r = classes t.
Proof.
  intros N. revert r. induction t; cbn; intros r; try (intros [= <-]; destruct u; try reflexivity; exfalso; eapply N; reflexivity).
  destruct c; try discriminate; (destruct (same_class t u) as [u'|]; [|discriminate]; cbn; intros [= <-]; cbn; now rewrite (IHt u' eq_refl)).
Qed.
Lemma compat2_family a b : ~ In OraInt (classes a) -> ~ In OraInt (classes b) ->
  match compat2 a b with
  | Ok c => ~ In OraInt (classes c) /\ (a = b /\ c = a \/ exists f, family_of a = Some f /\ family_of b = Some f /\ family_of c = Some f)
  | Err e => e = "CompatibilityError"%string /\ a <> b /\ forall f, family_of a = Some f -> family_of b <> Some f
  end.
Proof.
  intros Na Nb. unfold compat2. destruct (type_eqb a b) eqn:E.
  - split; [exact Na|]. left. apply type_eqb_eq in E. auto.
  - assert (N : a <> b) by (intros X; apply type_eqb_eq in X; congruence).
    unfold family_of, kind_of.
    destruct (base_type a) eqn:A; destruct (base_type b) eqn:B; try (split; [reflexivity|]; split; [exact N|intros f X; congruence]);
      match goal with |- match same_class ?t ?u with _ => _ end => destruct (same_class_total t u) as (r & R); [assumption|]; rewrite R;
        pose proof (same_class_classes t u r ltac:(intros ? ? ?; discriminate) R) as RC; apply same_class_base in R; [|intros ? ? ?; discriminate];
        rewrite RC, R end; (split; [assumption|]; right; eexists; split; [reflexivity|split; reflexivity]).
Qed.
Theorem C29_refused_iff : forall l, l <> [] -> no_bare_int l ->
  ((exists e, compatible_type l = Err e) <->
   ~ (forall u u', In u l -> In u' l -> u = u') /\ ~ (exists f, forall u, In u l -> family_of u = Some f)) /\
  (forall e, compatible_type l = Err e -> e = "CompatibilityError"%string).
Proof.
  intros [|x l] NE NB; [congruence|]. clear NE. cbn [compatible_type].
  assert (Nx : ~ In OraInt (classes x)) by (apply NB; now left).
  assert (Nl : forall y, In y l -> ~ In OraInt (classes y)) by (intros y I; apply NB; now right). clear NB.
  assert (G : forall l x, ~ In OraInt (classes x) -> (forall y, In y l -> ~ In OraInt (classes y)) ->
    match reduce_from x l with
    | Ok c => (forall u, In u (x :: l) -> u = x) \/ exists f, forall u, In u (x :: l) -> family_of u = Some f
    | Err e => e = "CompatibilityError"%string /\ ~ (forall u, In u (x :: l) -> u = x) /\ ~ (exists f, forall u, In u (x :: l) -> family_of u = Some f)
    end).
  { clear. induction l as [|y l IH]; intros x Nx Nl; cbn [reduce_from]; [left; intros u [<-|[]]; reflexivity|].
    pose proof (compat2_family x y Nx (Nl y (or_introl eq_refl))) as S. destruct (compat2 x y) as [z|e]; cbn [bind].
    - destruct S as [Nz S]. specialize (IH z Nz (fun w I => Nl w (or_intror I))). destruct (reduce_from z l) as [c|e].
      + destruct S as [[<- ->]|(fm & Fx & Fy & Fz)].
        * destruct IH as [A|[fm B]]; [left; intros u [<-|[<-|I]]; auto; apply A; now right|right; exists fm; intros u [<-|[<-|I]]; apply B; [now left|now left|now right]].
        * right. exists fm. destruct IH as [A|[fm' B]]; intros u [<-|[<-|I]]; try assumption.
          -- rewrite (A u (or_intror I)). exact Fz.
          -- rewrite (B u (or_intror I)), <- (B z (or_introl eq_refl)). exact Fz.
      + destruct IH as (E & A & B). split; [exact E|]. destruct S as [[<- ->]|(fm & Fx & Fy & Fz)].
        * split; [intros H; apply A; intros u [<-|I]; [reflexivity|apply H; right; now right]|].
          intros [fm H]. apply B. exists fm. intros u [<-|I]; apply H; [now left|right; now right].
        * assert (K : ~ exists f, forall u, In u (x :: y :: l) -> family_of u = Some f).
          { intros [f' H]. apply B. exists f'. intros u [<-|I]; [|apply H; right; now right]. rewrite <- (H x (or_introl eq_refl)). congruence. }
          split; [|exact K]. intros H. apply K. exists fm. intros u I. rewrite (H u I). exact Fx.
    - destruct S as (E & NX & F). split; [exact E|]. split.
      + intros H. apply NX. symmetry. apply H. right. now left.
      + intros [fm H]. apply (F fm); apply H; [now left|right; now left]. }
  specialize (G l x Nx Nl). destruct (reduce_from x l) as [c|e]; split; try discriminate.
  - split; [intros [e X]; discriminate X|]. intros [A B]. exfalso. destruct G as [G|G]; [|contradiction]. apply A. intros u u' I I'. now rewrite (G u I), (G u' I').
  - destruct G as (E & A & B). split; [|eauto]. intros _. split; [|exact B]. intros H. apply A. intros u I. apply H; [exact I|now left].
  - intros e' [= <-]. apply G.
Qed.
Print Assumptions C29_refused_iff.

(** A type without limit makes the result unlimited. *)
Definition limit_of (t : sqltype) : option (option Z) :=
  match base_type t with TFixChar l | TVarChar l | TFixBin l | TVarBin l => Some l | _ => None end.
Theorem C29_unlimited_absorbs : forall l t u, compatible_type l = Ok t -> In u l -> limit_of u = Some None -> limit_of t = Some None.
Proof.
  intros [|x l] t u; [discriminate|]. cbn [compatible_type]. intros E I L. destruct (reduce_bound l x t E) as [[A ->]|B].
  - destruct I as [->|I]; [exact L|]. now rewrite <- (A u I).
  - specialize (B u I). unfold limit_of, conv in *. destruct (base_type u); try discriminate L; injection L as ->; destruct (base_type t); cbn in B; try tauto; destruct limit || destruct storage; tauto || reflexivity.
Qed.
Print Assumptions C29_unlimited_absorbs.

(** An unsigned type of the width of the result does not fit: 255 is a value of an unsigned byte. *)
Theorem C29_unsigned_lost_refuted : exists l t u v,
  compatible_type l = Ok t /\ (forall u, In u l -> width_ok u) /\ In u l /\ holds u v /\ ~ holds t v.
Proof.
  exists [TInt 1 true None None; TInt 1 false None None], (TInt 1 true None None), (TInt 1 false None None), (VInt 255).
  split; [reflexivity|]. split; [intros u [<-|[<-|[]]]; cbn; lia|]. split; [right; now left|]. split.
  - cbn. split; [lia|]. split; intros ? X; discriminate X.
  - cbn. lia.
Qed.
Print Assumptions C29_unsigned_lost_refuted.
(** Types of different classes: the class of the first one is taken. *)
Theorem C29_mixed_classes_refuted : exists l l', Permutation l l' /\ compatible_type l <> compatible_type l'.
Proof. exists [TVarChar (Some 3); TSub MyVarChar (TVarChar (Some 5))], [TSub MyVarChar (TVarChar (Some 5)); TVarChar (Some 3)]. split; [apply perm_swap|discriminate]. Qed.
Print Assumptions C29_mixed_classes_refuted.
(** Two Oracle integer types with different ranges: TypeError rather than a common type. *)
Theorem C29_oracle_integers_refuted : exists a b, kind_of a = Some KInt /\ kind_of b = Some KInt /\ compatible_type [a; b] = Err "TypeError".
Proof. exists (TSub OraInt (TInt 8 true None None)), (TSub OraInt (TInt 8 true (Some 0) (Some 9))). repeat split. Qed.
Print Assumptions C29_oracle_integers_refuted.

Example C29_ex : compatible_type [TFixChar (Some 3); TVarChar (Some 10); TFixChar (Some 12)] = Ok (TVarChar (Some 12)) /\
  compatible_type [TInt 2 true None None; TInt 1 false None None; TInt 4 true None None] = Ok (TInt 4 true None None) /\
  compatible_type [TVarChar None; TFixBin None] = Err "CompatibilityError".
Proof. repeat split. Qed.
Example C29_ex_hyp : one_engine [TSub MyVarChar (TVarChar (Some 3)); TFixChar (Some 2); TSub MyVarChar (TVarChar None)].
Proof. exists (fun k => match k with KVarChar => [MyVarChar] | _ => [] end). intros t k [<-|[<-|[<-|[]]]] [= <-]; reflexivity. Qed.
