From Verif Require Import PyStr QuoteModel Types Compat CompatSpec.
From Coq Require Import Permutation.
Open Scope Z_scope.
Open Scope list_scope.

(** types without their classes *)
Inductive bt : Type :=
| BInt (w : Z) (s : bool) (mn mx : option Z) | BReal | BDouble | BFixChar (l : option Z) | BVarChar (l : option Z)
| BFixBin (l : option Z) | BVarBin (l : option Z) | BOther (t : sqltype).
Definition conv (t : sqltype) : bt :=
  match base_type t with
  | TInt w s mn mx => BInt w s mn mx | TReal => BReal | TDouble => BDouble | TFixChar l => BFixChar l | TVarChar l => BVarChar l
  | TFixBin l => BFixBin l | TVarBin l => BVarBin l | _ => BOther t
  end.
Lemma sqltype_dec (a b : sqltype) : {a = b} + {a <> b}.
Proof. destruct (type_eqb a b) eqn:E; [left; now apply type_eqb_eq|right; intros X; apply type_eqb_eq in X; congruence]. Defined.
Lemma oz_dec (a b : option Z) : {a = b} + {a <> b}.
Proof. decide equality. apply Z.eq_dec. Defined.
Lemma bt_dec (a b : bt) : {a = b} + {a <> b}.
Proof. decide equality; try apply oz_dec; try apply Z.eq_dec; try apply Bool.bool_dec; apply sqltype_dec. Defined.
Definition f (a b : bt) : res bt :=
  if bt_dec a b then Ok a else
  match a, b with
  | BInt w _ _ _, BInt w' _ _ _ => Ok (BInt (Z.max w w') true None None)
  | BReal, BReal => Ok BReal
  | BReal, BDouble | BDouble, BReal | BDouble, BDouble => Ok BDouble
  | BFixChar x, BFixChar y => Ok (BFixChar (max_or_none x y))
  | BFixChar x, BVarChar y | BVarChar x, BFixChar y | BVarChar x, BVarChar y => Ok (BVarChar (max_or_none x y))
  | BFixBin x, BFixBin y => Ok (BFixBin (max_or_none x y))
  | BFixBin x, BVarBin y | BVarBin x, BFixBin y | BVarBin x, BVarBin y => Ok (BVarBin (max_or_none x y))
  | _, _ => Err "CompatibilityError"
  end.

Lemma mon_comm a b : max_or_none a b = max_or_none b a.
Proof. destruct a, b; cbn; try reflexivity. now rewrite Z.max_comm. Qed.
Lemma mon_assoc a b c : max_or_none (max_or_none a b) c = max_or_none a (max_or_none b c).
Proof. destruct a, b, c; cbn; try reflexivity. now rewrite Z.max_assoc. Qed.
Lemma mon_idem a : max_or_none a a = a.
Proof. destruct a; cbn; [now rewrite Z.max_id|reflexivity]. Qed.

(** f without the shortcut for equal arguments, except for integers and others *)
Definition f' (a b : bt) : res bt :=
  match a, b with
  | BInt w s m n, BInt w' s' m' n' => if bt_dec a b then Ok a else Ok (BInt (Z.max w w') true None None)
  | BReal, BReal => Ok BReal
  | BReal, BDouble | BDouble, BReal | BDouble, BDouble => Ok BDouble
  | BFixChar x, BFixChar y => Ok (BFixChar (max_or_none x y))
  | BFixChar x, BVarChar y | BVarChar x, BFixChar y | BVarChar x, BVarChar y => Ok (BVarChar (max_or_none x y))
  | BFixBin x, BFixBin y => Ok (BFixBin (max_or_none x y))
  | BFixBin x, BVarBin y | BVarBin x, BFixBin y | BVarBin x, BVarBin y => Ok (BVarBin (max_or_none x y))
  | BOther t, BOther u => if sqltype_dec t u then Ok a else Err "CompatibilityError"
  | _, _ => Err "CompatibilityError"
  end.
Lemma f_f' a b : f a b = f' a b.
Proof.
  unfold f. destruct (bt_dec a b) as [->|N].
  - destruct b; cbn [f']; rewrite ?mon_idem; try reflexivity; [destruct (bt_dec _ _); [reflexivity|congruence]|destruct (sqltype_dec t t); [reflexivity|congruence]].
  - destruct a, b; cbn [f']; try reflexivity; [destruct (bt_dec _ _); [contradiction|reflexivity]|destruct (sqltype_dec _ _); [congruence|reflexivity]].
Qed.
Lemma f_comm a b : f a b = f b a.
Proof.
  rewrite !f_f'. destruct a, b; cbn [f']; try reflexivity; try (now rewrite mon_comm).
  - destruct (bt_dec (BInt w s mn mx) (BInt w0 s0 mn0 mx0)) as [E|N], (bt_dec (BInt w0 s0 mn0 mx0) (BInt w s mn mx)) as [E'|N']; try congruence. now rewrite Z.max_comm.
  - destruct (sqltype_dec t t0), (sqltype_dec t0 t); congruence.
Qed.
Definition isint (a : bt) : bool := match a with BInt _ _ _ _ => true | _ => false end.
Lemma f_right_int w s m n w1 s1 m1 n1 w2 s2 m2 n2 :
  let a := BInt w s m n in let b := BInt w1 s1 m1 n1 in let c := BInt w2 s2 m2 n2 in
  (do x <- f' a b; f' x c) = (do x <- f' a c; f' x b).
Proof.
  cbn [f'].
  destruct (bt_dec (BInt w s m n) (BInt w1 s1 m1 n1)) as [E1|N1], (bt_dec (BInt w s m n) (BInt w2 s2 m2 n2)) as [E2|N2]; cbn [bind f'];
    repeat match goal with |- context [bt_dec ?a ?b] => destruct (bt_dec a b) end;
    repeat match goal with H : BInt _ _ _ _ = BInt _ _ _ _ |- _ => injection H as ? ? ? ?; subst end; try congruence;
    try (f_equal; f_equal; lia); try (exfalso; congruence).
  all: try (f_equal; f_equal; lia).
Qed.
Lemma f_right a b c : (do x <- f a b; f x c) = (do x <- f a c; f x b).
Proof.
  assert (G : (do x <- f' a b; f' x c) = (do x <- f' a c; f' x b)).
  { destruct (isint a && isint b && isint c) eqn:I.
    - destruct a; try discriminate I. destruct b; try discriminate I. destruct c; try discriminate I. apply f_right_int.
    - destruct a, b; try discriminate I; cbn [f' bind]; destruct c; try discriminate I; cbn [f' bind]; try reflexivity;
        try (destruct (bt_dec _ _); reflexivity); try (destruct (sqltype_dec _ _); reflexivity);
        try (rewrite !mon_assoc; do 2 f_equal; f_equal; apply mon_comm).
      destruct (sqltype_dec t t0), (sqltype_dec t t1); cbn [bind f']; try reflexivity; subst; try (destruct (sqltype_dec _ _); congruence). }
  pose proof (f_f' a b) as Eb. pose proof (f_f' a c) as Ec. rewrite Eb, Ec. destruct (f' a b), (f' a c); cbn [bind] in *; rewrite ?f_f'; exact G.
Qed.
Fixpoint fold (x : bt) (l : list bt) : res bt := match l with [] => Ok x | y :: r => do z <- f x y; fold z r end.
Definition fold_res (x : res bt) (l : list bt) : res bt := fold_left (fun r y => do x <- r; f x y) l x.
Lemma fold_err e l : fold_res (Err e) l = Err e.
Proof. unfold fold_res. induction l as [|y l IH]; [reflexivity|exact IH]. Qed.
Lemma fold_fold x l : fold x l = fold_res (Ok x) l.
Proof.
  revert x. induction l as [|y l IH]; intros x; [reflexivity|]. cbn. destruct (f x y) as [z|e] eqn:E; cbn; [apply IH|].
  symmetry. apply fold_err.
Qed.
Lemma fold_perm l l' : Permutation l l' -> forall x, fold_res x l = fold_res x l'.
Proof.
  unfold fold_res. induction 1 as [|y l l' P IH|y z l|l1 l2 l3 P1 IH1 P2 IH2]; intros x; cbn.
  - reflexivity.
  - apply IH.
  - f_equal. destruct x as [x|e]; [|reflexivity]. cbn [bind]. apply f_right.
  - now rewrite IH1.
Qed.
Definition reduce (l : list bt) : res bt := match l with [] => Err "TypeError" | x :: r => fold x r end.
Lemma reduce_perm l l' : Permutation l l' -> reduce l = reduce l'.
Proof.
  induction 1 as [|y l l' P IH|y z l|l1 l2 l3 P1 IH1 P2 IH2].
  - reflexivity.
  - cbn. rewrite !fold_fold. now apply fold_perm.
  - cbn. now rewrite f_comm.
  - congruence.
Qed.

(** ** Transfer *)
Section Transfer.
  Context (cl : kind -> list tcls).
  Definition dom (t : sqltype) : Prop := (forall k, kind_of t = Some k -> classes t = cl k) /\ ~ In OraInt (classes t).
  Fixpoint wrap (cs : list tcls) (t : sqltype) : sqltype := match cs with [] => t | c :: r => TSub c (wrap r t) end.
  Lemma wrap_base t : wrap (classes t) (base_type t) = t.
  Proof. induction t; cbn; try reflexivity. now rewrite IHt. Qed.
  Lemma same_class_ok t u : ~ In OraInt (classes t) -> same_class t u = Ok (wrap (classes t) u).
  Proof.
    induction t; cbn; intros N; try reflexivity. destruct c; try (exfalso; apply N; now left); rewrite IHt by tauto; reflexivity.
  Qed.
  Lemma wrap_base_of cs u : (forall c t, u <> TSub c t) -> base_type (wrap cs u) = u.
  Proof. intros H. induction cs as [|c cs IH]; cbn; [destruct u; try reflexivity; congruence|exact IH]. Qed.
  Lemma wrap_classes cs u : (forall c t, u <> TSub c t) -> classes (wrap cs u) = cs.
  Proof. intros H. induction cs as [|c cs IH]; cbn; [destruct u; try reflexivity; congruence|now rewrite IH]. Qed.
  Lemma conv_inj a b : dom a -> dom b -> conv a = conv b -> a = b.
  Proof.
    intros [A _] [B _] E. unfold conv in E. unfold kind_of in A, B.
    rewrite <- (wrap_base a), <- (wrap_base b).
    destruct (base_type a) eqn:Ea, (base_type b) eqn:Eb; try discriminate E; try (injection E as E; congruence);
      try (injection E as ? ? ? ?; subst); try (injection E as ?; subst);
      rewrite (A _ eq_refl), (B _ eq_refl); reflexivity.
  Qed.
  Lemma dom_wrap u k : (forall c t, u <> TSub c t) -> kind_of u = Some k -> ~ In OraInt (cl k) -> dom (wrap (cl k) u).
  Proof.
    intros N K O. split.
    - intros k' K'. rewrite (wrap_classes _ _ N). unfold kind_of in *. rewrite (wrap_base_of _ _ N) in K'.
      assert (X : base_type u = u) by (destruct u; try reflexivity; exfalso; eapply N; reflexivity). rewrite X in K. congruence.
    - now rewrite (wrap_classes _ _ N).
  Qed.
  Lemma step a b : dom a -> dom b ->
    match compat2 a b with Ok c => dom c /\ f (conv a) (conv b) = Ok (conv c) | Err e => f (conv a) (conv b) = Err e end.
  Proof.
    intros Da Db. unfold compat2. destruct (type_eqb a b) eqn:E.
    - apply type_eqb_eq in E. subst b. split; [exact Da|]. unfold f. destruct (bt_dec _ _); congruence.
    - assert (N : a <> b) by (intros X; apply type_eqb_eq in X; congruence).
      assert (NC : conv a <> conv b) by (intros X; apply N; now apply conv_inj).
      unfold f. destruct (bt_dec (conv a) (conv b)) as [X|_]; [contradiction|].
      destruct Da as [Ka Oa], Db as [Kb Ob].
      unfold conv, kind_of in *.
      destruct (base_type a) eqn:Ea; destruct (base_type b) eqn:Eb; try reflexivity; try (exfalso; apply NC; congruence);
        rewrite same_class_ok by assumption;
        rewrite ?(Ka _ eq_refl), ?(Kb _ eq_refl); rewrite (Ka _ eq_refl) in Oa; rewrite (Kb _ eq_refl) in Ob;
        (split; [apply dom_wrap; [intros ? ? ?; discriminate|reflexivity|assumption]|rewrite wrap_base_of by (intros ? ? ?; discriminate); reflexivity]).
  Qed.
  Lemma reduce_transfer l x : dom x -> (forall y, In y l -> dom y) ->
    match reduce_from x l with Ok c => dom c /\ fold (conv x) (map conv l) = Ok (conv c) | Err e => fold (conv x) (map conv l) = Err e end.
  Proof.
    revert x. induction l as [|y l IH]; intros x Dx Dl; cbn [reduce_from map fold]; [auto|].
    pose proof (step x y Dx (Dl y (or_introl eq_refl))) as S. destruct (compat2 x y) as [z|e]; cbn [bind].
    - destruct S as [Dz E]. rewrite E. cbn [bind]. apply IH; [exact Dz|]. intros u I. apply Dl. now right.
    - rewrite S. reflexivity.
  Qed.
  Lemma compatible_transfer l : (forall y, In y l -> dom y) ->
    match compatible_type l with Ok c => dom c /\ reduce (map conv l) = Ok (conv c) | Err e => reduce (map conv l) = Err e end.
  Proof. destruct l as [|x l]; [reflexivity|]. intros D. cbn. apply reduce_transfer; [apply D; now left|intros y I; apply D; now right]. Qed.
End Transfer.

Lemma order_independent l l' : one_engine l -> no_bare_int l -> Permutation l l' -> compatible_type l = compatible_type l'.
Proof.
  intros [cl C] O P.
  assert (D : forall y, In y l -> dom cl y) by (intros y I; split; [intros k K; exact (C y k I K)|exact (O y I)]).
  assert (D' : forall y, In y l' -> dom cl y) by (intros y I; apply D; apply (Permutation_in _ (Permutation_sym P)); exact I).
  pose proof (compatible_transfer cl l D) as X. pose proof (compatible_transfer cl l' D') as Y.
  rewrite (reduce_perm (map conv l) (map conv l')) in X by now apply Permutation_map.
  destruct (compatible_type l) as [c|e], (compatible_type l') as [c'|e'].
  - destruct X as [Dc X], Y as [Dc' Y]. rewrite X in Y. injection Y as Y. f_equal. exact (conv_inj cl c c' Dc Dc' Y).
  - destruct X as [_ X]. congruence.
  - destruct Y as [_ Y]. congruence.
  - congruence.
Qed.

(** ** No value is lost *)
Definition lim_le (a b : option Z) : Prop := match a, b with _, None => True | Some x, Some y => x <= y | None, Some _ => False end.
(** [b] holds what [a] holds, except for unsigned integers of the same width *)
Definition ble (a b : bt) : Prop :=
  match a, b with
  | BInt w _ _ _, BInt w' true None None => w <= w'
  | BReal, (BReal | BDouble) | BDouble, BDouble => True
  | BFixChar x, (BFixChar y | BVarChar y) | BVarChar x, BVarChar y | BFixBin x, (BFixBin y | BVarBin y) | BVarBin x, BVarBin y => lim_le x y
  | _, _ => False
  end.
Lemma lim_refl a : lim_le a a.
Proof. destruct a; cbn; lia || exact I. Qed.
Lemma lim_trans a b c : lim_le a b -> lim_le b c -> lim_le a c.
Proof. destruct a, b, c; cbn; try tauto; lia. Qed.
Lemma lim_l a b : lim_le a (max_or_none a b).
Proof. destruct a, b; cbn; try exact I; lia. Qed.
Lemma lim_r a b : lim_le b (max_or_none a b).
Proof. rewrite mon_comm. apply lim_l. Qed.
Lemma ble_trans a b c : ble a b -> ble b c -> ble a c.
Proof.
  destruct a, b; cbn; try tauto; destruct c; cbn; try tauto; try apply lim_trans.
  destruct s0; [|tauto]. destruct mn0; [tauto|]. destruct mx0; [tauto|]. destruct s1; [|tauto]. destruct mn1; [tauto|]. destruct mx1; [tauto|]. lia.
Qed.
Lemma ble_refl a b : ble a b -> ble b b.
Proof. destruct a, b; cbn; try tauto; try (intros _; apply lim_refl). destruct s0; [|tauto]. destruct mn0; [tauto|]. destruct mx0; [tauto|]. lia. Qed.
Lemma same_class_base t u r : (forall c v, u <> TSub c v) -> same_class t u = Ok r -> base_type r = u.
Proof.
  intros N. revert r. induction t; cbn; intros r; try (intros [= <-]; destruct u; try reflexivity; exfalso; eapply N; reflexivity).
  destruct c; try discriminate; (destruct (same_class t u) as [u'|]; [|discriminate]; cbn; intros [= <-]; cbn; now apply IHt).
Qed.
Lemma compat2_bound a b c : compat2 a b = Ok c -> a = b /\ c = a \/ ble (conv a) (conv c) /\ ble (conv b) (conv c).
Proof.
  unfold compat2. destruct (type_eqb a b) eqn:E; [intros [= <-]; left; split; [now apply type_eqb_eq|reflexivity]|].
  intros H. right. unfold conv. revert H.
  destruct (base_type a) eqn:A; destruct (base_type b) eqn:B; try discriminate; intros H; apply same_class_base in H; try (intros ? ? ?; discriminate);
    rewrite H; cbn; try tauto; try (split; first [apply lim_l|apply lim_r]). lia.
Qed.
Lemma reduce_bound l : forall x t, reduce_from x l = Ok t -> (forall y, In y l -> y = x) /\ t = x \/ (forall u, In u (x :: l) -> ble (conv u) (conv t)).
Proof.
  induction l as [|y l IH]; intros x t; cbn [reduce_from]; [intros [= <-]; left; split; [intros ? []|reflexivity]|].
  destruct (compat2 x y) as [z|] eqn:F; [|discriminate]. cbn [bind]. intros E. destruct (compat2_bound _ _ _ F) as [[Exy Ezx]|[Lx Ly]]; destruct (IH z t E) as [[A Et]|B].
  - left. subst. split; [|reflexivity]. intros u [<-|I]; [reflexivity|exact (A u I)].
  - right. subst. intros u [<-|[<-|I]]; apply B; [now left|now left|now right].
  - right. subst t. intros u [<-|[<-|I]]; [exact Lx|exact Ly|]. rewrite (A u I). exact (ble_refl _ _ Lx).
  - right. pose proof (B z (or_introl eq_refl)) as Z. intros u [<-|[<-|I]]; [exact (ble_trans _ _ _ Lx Z)|exact (ble_trans _ _ _ Ly Z)|apply B; now right].
Qed.
Lemma pow_le a b : 0 <= a <= b -> 2 ^ a <= 2 ^ b.
Proof. intros H. apply Z.pow_le_mono_r; lia. Qed.
Lemma ble_holds u t v : ble (conv u) (conv t) -> width_ok u -> (is_unsigned u -> width_of u < width_of t) -> holds u v -> holds t v.
Proof.
  unfold conv, width_ok, is_unsigned, width_of, holds, kind_of.
  destruct (base_type u) eqn:U; destruct (base_type t) eqn:T; cbn [ble]; try tauto; intros B W N;
    try (destruct v; try tauto; intros [X _]; discriminate X).
  - destruct signed0; [|tauto]. destruct mn0; [tauto|]. destruct mx0; [tauto|]. destruct v; try tauto; [|intros [X _]; discriminate X].
    intros [R _]. split; [|split; intros ? X; discriminate X]. unfold int_range in *. destruct signed.
    + pose proof (pow_le (8 * width - 1) (8 * width0 - 1)). lia.
    + specialize (N eq_refl). pose proof (pow_le (8 * width) (8 * width0 - 1)). assert (0 < 2 ^ (8 * width0 - 1)) by (apply Z.pow_pos_nonneg; lia). lia.
  - destruct v; try tauto; [|intros [X _]; discriminate X]. unfold at_most. intros H m ->. destruct storage; cbn in B; [|tauto]. specialize (H _ eq_refl). lia.
  - destruct v; try tauto; [|intros [X _]; discriminate X]. unfold at_most. intros H m ->. destruct storage; cbn in B; [|tauto]. specialize (H _ eq_refl). lia.
  - destruct v; try tauto; [|intros [X _]; discriminate X]. unfold at_most. intros H m ->. destruct storage; cbn in B; [|tauto]. specialize (H _ eq_refl). lia.
  - destruct v; try tauto; [|intros [X _]; discriminate X]. unfold at_most. intros H m ->. destruct limit; cbn in B; [|tauto]. specialize (H _ eq_refl). lia.
  - destruct v; try tauto; [|intros [X _]; discriminate X]. unfold at_most. intros H m ->. destruct limit; cbn in B; [|tauto]. specialize (H _ eq_refl). lia.
  - destruct v; try tauto; [|intros [X _]; discriminate X]. unfold at_most. intros H m ->. destruct limit; cbn in B; [|tauto]. specialize (H _ eq_refl). lia.
Qed.
