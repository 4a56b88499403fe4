From Verif Require Import PyStr QuoteModel Types Objects Convert ConvertSpec ConvertProofs CloseSpec CloseProofs1 Reverse Generator GeneratorSpec GeneratorProofs.
From Coq Require Import Permutation Lia.
Open Scope string_scope.

Section Total.
Context (env : cid -> classdef) (src : nat -> N) (now : nat -> Z) (keys : list Z).
Definition succeeds {A} (x : R A) : Prop := forall i, exists v j, x i = Ok (v, j).
Lemma ret_succeeds {A} (a : A) : succeeds (ret a).
Proof. intros i. eexists _, _. reflexivity. Qed.
Lemma rbind_succeeds {A B} (x : R A) (f : A -> R B) : succeeds x -> (forall a, succeeds (f a)) -> succeeds (rbind x f).
Proof. intros X F i. unfold rbind. destruct (X i) as (a & k & E). rewrite E. apply F. Qed.
Lemma rbind_succeeds_val {A B} (x : R A) (f : A -> R B) (Q : A -> Prop) : succeeds x -> (forall i a j, x i = Ok (a, j) -> Q a) -> (forall a, Q a -> succeeds (f a)) -> succeeds (rbind x f).
Proof. intros X V F i. unfold rbind. destruct (X i) as (a & k & E). rewrite E. apply F. eapply V; eauto. Qed.
Lemma below_succeeds n : (0 < n)%N -> succeeds (below src n).
Proof. intros P i. unfold below. destruct (N.eqb_spec n 0); [lia|]. eexists _, _. reflexivity. Qed.
Lemma randint_succeeds a b : (a <= b)%Z -> succeeds (randint src a b).
Proof. intros L. unfold randint. destruct (Z.ltb_spec b a); [lia|]. apply rbind_succeeds; [apply below_succeeds; lia|]. intros. apply ret_succeeds. Qed.
Lemma randrange_succeeds n : (0 < n)%Z -> succeeds (randrange src n).
Proof. intros L. unfold randrange. destruct (Z.leb_spec n 0); [lia|]. apply rbind_succeeds; [apply below_succeeds; lia|]. intros. apply ret_succeeds. Qed.
Lemma choice_succeeds {A} (l : list A) : l <> [] -> succeeds (choice src l).
Proof.
  intros N. unfold choice. destruct l as [|x l]; [congruence|].
  apply rbind_succeeds_val with (Q := fun n => (n < N.of_nat (length (x :: l)))%N); [apply below_succeeds; cbn [length]; lia|intros i a j E; now apply below_ok in E|].
  intros n L. destruct (nth_error (x :: l) (N.to_nat n)) eqn:E; [apply ret_succeeds|]. apply nth_error_None in E. lia.
Qed.
Lemma seq_all_succeeds {A} (l : list (R A)) : (forall x, In x l -> succeeds x) -> succeeds (seq_all l).
Proof.
  induction l as [|x l IH]; intros F; cbn [seq_all]; [apply ret_succeeds|]. apply rbind_succeeds; [apply F; now left|]. intros a. apply rbind_succeeds; [apply IH; intros y I; apply F; now right|]. intros. apply ret_succeeds.
Qed.
Lemma choices_succeeds {A} (l : list A) k : l <> [] -> succeeds (choices src l k).
Proof. intros N. apply seq_all_succeeds. intros x I. apply repeat_spec in I. subst. now apply choice_succeeds. Qed.
Lemma shuffle_succeeds {A} (l : list A) : succeeds (shuffle src l).
Proof. intros i. apply shuffle_from_total. Qed.

Context (CLOCK : forall i, (86400 * 4679 <= now i)%Z).
Lemma scalar_succeeds t ms g : supported env ms t -> scalar_generator env src now t ms = Some g -> succeeds g.
Proof.
  intros S H. destruct S as [t I|R|R|R|c e es E|c fs a d ps E|c E|v vs|t l|t E|t E]; cbn [scalar_generator] in H.
  - repeat destruct I as [<-|I]; cbn [scalar_generator] in H; try (injection H as <-).
    + apply rbind_succeeds; [|intros; apply ret_succeeds]. apply rbind_succeeds; [now apply below_succeeds|intros; apply ret_succeeds].
    + apply rbind_succeeds; [now apply below_succeeds|intros; apply ret_succeeds].
    + unfold random_datetime. intros i. specialize (CLOCK i). apply rbind_succeeds; [apply randrange_succeeds; unfold start_seconds; lia|intros; apply ret_succeeds].
    + unfold random_date. intros i. specialize (CLOCK i). apply rbind_succeeds; [apply randrange_succeeds; unfold start_day|intros; apply ret_succeeds].
      assert (X := Z.div_le_mono (86400 * 4679) (now i) 86400 ltac:(lia) CLOCK). rewrite (Z.mul_comm 86400), Z.div_mul in X by lia. lia.
    + unfold random_time. apply rbind_succeeds; [apply randrange_succeeds; lia|intros; apply ret_succeeds].
    + apply rbind_succeeds; [now apply below_succeeds|intros; apply ret_succeeds].
    + apply rbind_succeeds; [now apply below_succeeds|intros; apply ret_succeeds].
    + apply rbind_succeeds; [now apply below_succeeds|intros]. apply rbind_succeeds; [now apply below_succeeds|intros; apply ret_succeeds].
    + destruct I.
  - injection H as <-. unfold find_range. destruct (find _ ms) as [m|] eqn:F.
    + apply find_some in F as [I Q]. destruct m; try discriminate Q. apply rbind_succeeds; [now apply randint_succeeds, R|intros; apply ret_succeeds].
    + apply rbind_succeeds; [apply randint_succeeds; lia|intros; apply ret_succeeds].
  - injection H as <-. unfold random_text. apply rbind_succeeds; [apply randint_succeeds, R|].
    + unfold find_min. destruct (find _ ms) as [m|] eqn:F.
      * left. apply find_some in F as [I Q]. now destruct m; try discriminate Q.
      * right. split; [reflexivity|]. intros n I. apply (find_none _ _ F) in I. discriminate.
    + unfold find_max. destruct (find _ ms) as [m|] eqn:F.
      * left. apply find_some in F as [I Q]. now destruct m; try discriminate Q.
      * right. split; [reflexivity|]. intros n I. apply (find_none _ _ F) in I. discriminate.
    + intros k. apply rbind_succeeds; [apply choices_succeeds; discriminate|intros; apply ret_succeeds].
  - injection H as <-. destruct (default_to _ _) as [p d] eqn:E. assert (X : (0 <= d <= p /\ 0 < p)%Z).
    { unfold find_precision in E. destruct (find _ ms) as [m|] eqn:F; [|cbn in E; injection E as <- <-; lia]. apply find_some in F as [I Q]. destruct m; try discriminate Q. cbn in E. injection E as <- <-. now apply R. }
    unfold random_decimal. apply rbind_succeeds_val with (Q := fun a => length a = Z.to_nat (p - d)); [apply choices_succeeds; discriminate|intros i a j Y; now apply choices_ok in Y|]. intros a La.
    apply rbind_succeeds_val with (Q := fun a => length a = Z.to_nat d); [apply choices_succeeds; discriminate|intros i b j Y; now apply choices_ok in Y|]. intros b Lb.
    destruct (a ++ b)%list eqn:AB; [|apply ret_succeeds]. apply (f_equal (@length _)) in AB. rewrite app_length in AB. cbn in AB. lia.
  - rewrite E in H. injection H as <-. apply rbind_succeeds; [apply choice_succeeds; discriminate|intros; apply ret_succeeds].
  - rewrite E in H. discriminate.
  - discriminate.
  - injection H as <-. destruct vs; [apply ret_succeeds|]. apply rbind_succeeds; [apply choice_succeeds; discriminate|intros; apply ret_succeeds].
  - discriminate.
  - discriminate.
  - discriminate.
Qed.

Definition works (g : generator) : Prop := forall k, (k < length keys)%nat -> succeeds (g k).
(** the part of [create] after the type of the value is known *)
Definition body (n : nat) (plain : pytype) (ms : list meta) : res generator :=
  match scalar_generator env src now plain ms with
  | Some g => Ok (fun _ => g)
  | None =>
      match plain with
      | YUnion l =>
          if is_union (YUnion l)
          then do gs <- map_res (create env src now keys n) l; Ok (fun k => rbind (choice src gs) (fun g => g k))
          else Err "DataGeneratorError"
      | YCls c =>
          match env c with
          | KData fs _ _ _ =>
              if has_key env c then Err "DataGeneratorError"
              else do gs <- map_res (fun f => do g <- create env src now keys n (f_type f); Ok (f_name f, g)) fs;
                   Ok (fun k => rbind (seq_all (map (fun p => rbind (snd p k) (fun v => ret (fst p, v))) gs)) (fun l => ret (GvJson (GvObject l))))
          | _ => Err "DataGeneratorError"
          end
      | YList e | YSet e =>
          if is_type_enum env e
          then match e with
               | YCls c => match env c with KEnum es => Ok (fun _ => random_enum_list src c es) | _ => Err "TypeError" end
               | _ => Err "TypeError"
               end
          else do g <- create env src now keys n e;
               Ok (fun k => rbind (randint src 0 5) (fun m => rbind (seq_all (repeat (g k) (Z.to_nat m))) (fun l => ret (GvJson (GvList l)))))
      | _ => Err "DataGeneratorError"
      end
  end.
Definition created (t : pytype) : Prop := exists n0, forall n, (n0 <= n)%nat -> exists g, create env src now keys n t = Ok g /\ works g.
Definition bodied (t : pytype) : Prop := exists n0, forall n, (n0 <= n)%nat -> exists g, body n (p_plain (field_properties t)) (p_meta (field_properties t)) = Ok g /\ works g.
Lemma map_res_created {A B} (f : nat -> A -> res B) (Q : B -> Prop) l :
  (forall a, In a l -> exists n0, forall n, (n0 <= n)%nat -> exists b, f n a = Ok b /\ Q b) ->
  exists n0, forall n, (n0 <= n)%nat -> exists bs, map_res (f n) l = Ok bs /\ Forall Q bs /\ length bs = length l.
Proof.
  induction l as [|a l IH]; intros H; [exists O; intros; exists []; cbn; auto|].
  destruct (H a (or_introl eq_refl)) as (n1 & H1). destruct IH as (n2 & H2); [intros x I; apply H; now right|].
  exists (Nat.max n1 n2). intros n L. destruct (H1 n) as (b & E1 & Q1); [lia|]. destruct (H2 n) as (bs & E2 & Q2 & L2); [lia|]. exists (b :: bs). cbn [map_res]. rewrite E1. cbn. rewrite E2. cbn. auto.
Qed.
Lemma list_body (e : pytype) : match e with YAnn (YCls c) _ => forall es, env c <> KEnum es | _ => True end -> created e ->
  exists n0, forall n, (n0 <= n)%nat -> exists g, (if is_type_enum env e
          then match e with
               | YCls c => match env c with KEnum es => Ok (fun _ => random_enum_list src c es) | _ => Err "TypeError" end
               | _ => Err "TypeError"
               end
          else do g <- create env src now keys n e;
               Ok (fun k => rbind (randint src 0 5) (fun m => rbind (seq_all (repeat (g k) (Z.to_nat m))) (fun l => ret (GvJson (GvList l)))))) = Ok g /\ works g.
Proof.
  intros A (n0 & C). destruct (is_type_enum env e) eqn:TE.
  - assert (X : exists c es, e = YCls c /\ env c = KEnum es).
    { unfold is_type_enum, is_enum_cls in TE. destruct e as [| | | | | | | | | | | | | | | | |c|c|t ms|l|x|x|l]; cbn in TE; try discriminate TE.
      - destruct (env c) as [|es|] eqn:E; try discriminate TE. eauto.
      - destruct t as [| | | | | | | | | | | | | | | | |c|c|t ms'|l|x|x|l]; try discriminate TE. exfalso. destruct (env c) as [|es|] eqn:E; try discriminate TE. now apply (A es). }
    destruct X as (c & es & -> & E). exists O. intros n _. rewrite E. eexists. split; [reflexivity|]. intros k _. unfold random_enum_list.
    apply rbind_succeeds; [apply shuffle_succeeds|intros]. apply rbind_succeeds; [apply randint_succeeds; lia|intros; apply ret_succeeds].
  - exists n0. intros n L. destruct (C n L) as (g & E & W). rewrite E. eexists. split; [reflexivity|]. intros k K.
    apply rbind_succeeds; [apply randint_succeeds; lia|intros m]. apply rbind_succeeds; [|intros; apply ret_succeeds]. apply seq_all_succeeds. intros x I. apply repeat_spec in I. subst. now apply W.
Qed.
Definition reference_type (t : pytype) : Prop := match t with YCls c => exists fs a d ps, env c = KData fs a d ps /\ has_key env c = true | YFwd _ => True | _ => False end.
Lemma body_works t : supported env (p_meta (field_properties t)) (p_plain (field_properties t)) -> settled (p_plain (field_properties t)) ->
  (forall u, component env (p_plain (field_properties t)) u -> created u) -> ~ reference_type (p_plain (field_properties t)) -> bodied t.
Proof.
  intros S SE C NR. unfold bodied. generalize dependent (p_plain (field_properties t)). generalize (p_meta (field_properties t)). clear t. intros ms t S SE C NR.
  unfold body. destruct (scalar_generator env src now t ms) as [g|] eqn:SG.
  { exists O. intros n _. eexists. split; [reflexivity|]. intros k _. eapply scalar_succeeds; eauto. }
  destruct S as [t I|R|R|R|c e es E|c fs a d ps E|c E|v vs|t l|t E|t E]; cbn [scalar_generator] in SG; try discriminate SG.
  - exfalso. repeat destruct I as [<-|I]; try discriminate SG. destruct I.
  - rewrite E in SG. discriminate SG.
  - rewrite E. destruct (has_key env c) eqn:HK; [exfalso; apply NR; cbn; eauto 8|].
    assert (KL : keyless env c).
    { intros f I M. unfold has_key in HK. rewrite <- not_true_iff_false in HK. apply HK. apply existsb_exists. exists f. split; [exact I|]. unfold is_primary_key_type. apply existsb_exists. exists MPrimary. split; [exact M|]. now apply meta_eqb_eq. }
    destruct (map_res_created (fun n f => do g <- create env src now keys n (f_type f); Ok (f_name f, g)) (fun p => works (snd p)) fs) as (n0 & H).
    { intros f I. destruct (C (f_type f)) as (n1 & X); [econstructor; eauto|]. exists n1. intros n L. destruct (X n L) as (g & E1 & W). rewrite E1. cbn. eexists. split; [reflexivity|exact W]. }
    exists n0. intros n L. destruct (H n L) as (gs & E1 & W & _). rewrite E1. cbn. eexists. split; [reflexivity|]. intros k K.
    apply rbind_succeeds; [|intros; apply ret_succeeds]. apply seq_all_succeeds. intros x I. apply in_map_iff in I as (p & <- & I). rewrite Forall_forall in W.
    apply rbind_succeeds; [now apply W|intros; apply ret_succeeds].
  - exfalso. apply NR. exact I.
  - assert (U : is_union (YUnion (t :: l)) = true).
    { unfold is_union. cbn [unwrap]. destruct SE as [SE _]. destruct (existsb is_none (t :: l)) eqn:X; [|now rewrite orb_true_r]. exfalso. apply existsb_exists in X as (x & I & N). destruct x; try discriminate N. auto. }
    rewrite U. destruct (map_res_created (fun n => create env src now keys n) works (t :: l)) as (n0 & H); [intros u I; apply C; now constructor|].
    exists n0. intros n L. destruct (H n L) as (gs & E1 & W & LL). rewrite E1. cbn [bind]. eexists. split; [reflexivity|]. intros k K. rewrite Forall_forall in W.
    apply rbind_succeeds_val with (Q := fun g => In g gs); [apply choice_succeeds; intros ->; discriminate LL|intros i g j X; now apply choice_ok in X|]. intros g I. now apply W.
  - apply list_body; [exact E|]. apply C. constructor.
  - apply list_body; [exact E|]. apply C. constructor.
Qed.
Lemma create_eq n t : create env src now keys (S n) t =
  (let fp := field_properties t in
   do r <- reference_to_key env (field_type fp);
   let vp := field_properties r in
   if p_primary fp then
     match p_plain vp with
     | YInt => Ok (fun k => match nth_error keys k with Some z => ret (GvInt z) | None => fail "IndexError" end)
     | YUuid => Ok (fun _ => rbind (below src (2 ^ 122)) (fun n => ret (GvUuid n)))
     | _ => Err "DataGeneratorError"
     end
   else if p_nullable vp then
     do g <- create env src now keys n (field_type vp); Ok (fun k => rbind (mostly src) (fun b => if b then g k else ret GvNone))
   else body n (p_plain vp) (p_meta vp)).
Proof. reflexivity. Qed.
Lemma key_type_found c : has_key env c = true -> exists f, key_field env c f /\ key_type_of env c = Ok (field_type (field_properties (f_type f))).
Proof.
  intros H. destruct (key_type_of env c) as [kt|e] eqn:K.
  - destruct (key_of_class _ _ _ K) as (f & KF & ->). eauto.
  - exfalso. unfold key_type_of in K. destruct (find _ (fields_of env c)) eqn:F; [discriminate|]. unfold has_key in H. apply existsb_exists in H as (f & I & P). pose proof (find_none _ _ F f I) as N. cbn beta in N.
    unfold is_primary_key_type in P. unfold field_properties in N. cbn [p_primary] in N. rewrite existsb_app, P in N. discriminate.
Qed.
Lemma key_field_primary c f : key_field env c f -> p_primary (field_properties (f_type f)) = true.
Proof. intros (l1 & l2 & a & d & ps & _ & P & _). exact P. Qed.
(** the value type of a reference: the key of the class, or the type itself *)
Definition good (t : pytype) : Prop := created t /\ (~ reference_type (p_plain (field_properties t)) -> bodied t) /\
  (forall c f, p_plain (field_properties t) = YCls c \/ p_plain (field_properties t) = YFwd c -> key_field env c f -> bodied (f_type f) /\ settled (p_plain (field_properties (f_type f)))).
Definition settled_of (t : pytype) : Prop := settled (p_plain (field_properties t)).
Lemma makeable_settled t : makeable env t -> settled_of t.
Proof. intros M. destruct M. assumption. Qed.
Lemma makeable_primary t : makeable env t -> p_primary (field_properties t) = true -> p_plain (field_properties t) = YInt \/ p_plain (field_properties t) = YUuid.
Proof. intros M. destruct M. assumption. Qed.
Lemma entity_reference t c : entity_of env t = Some c -> exists fs a d ps, env c = KData fs a d ps /\ has_key env c = true.
Proof.
  unfold entity_of, dataclass_of. destruct (unwrap t); try discriminate. destruct (env c0) eqn:E; try discriminate. destruct (has_key env c0) eqn:K; [|discriminate]. intros [= <-]. eauto 8.
Qed.
Lemma no_entity_reference t : settled t -> match t with YFwd _ => False | _ => True end -> entity_of env t = None -> ~ reference_type t.
Proof.
  intros S NF E R. unfold reference_type in R. destruct t; try exact R; try destruct NF. destruct R as (fs & a & d & ps & E1 & E2). unfold entity_of, dataclass_of in E. cbn in E. now rewrite E1, E2 in E.
Qed.
Lemma finish t r : reference_to_key env (field_type (field_properties t)) = Ok r ->
  (p_primary (field_properties t) = true -> p_plain (field_properties r) = YInt \/ p_plain (field_properties r) = YUuid) ->
  p_nullable (field_properties r) = false -> bodied r -> created t.
Proof.
  intros RT PK NN (n0 & B). exists (S n0). intros n L. destruct n as [|n]; [lia|]. rewrite create_eq. cbv zeta. rewrite RT. cbn [bind]. destruct (p_primary (field_properties t)) eqn:P.
  - destruct (PK eq_refl) as [-> | ->]; eexists; (split; [reflexivity|]); intros k K.
    + destruct (nth_error keys k) eqn:E; [apply ret_succeeds|]. apply nth_error_None in E. lia.
    + apply rbind_succeeds; [now apply below_succeeds|intros; apply ret_succeeds].
  - rewrite NN. apply B. lia.
Qed.
Lemma bodied_field t : settled_of t -> bodied t -> bodied (field_type (field_properties t)) /\ p_nullable (field_properties (field_type (field_properties t))) = false /\
  p_plain (field_properties (field_type (field_properties t))) = p_plain (field_properties t).
Proof. intros S B. unfold bodied. rewrite (stable_field t S). cbn [p_plain p_meta p_nullable]. auto. Qed.
Lemma makeable_good t : makeable env t -> good t.
Proof.
  induction 1 as [t S SU PK MC IC MK IK].
  assert (NB : ~ reference_type (p_plain (field_properties t)) -> bodied t) by (intros NR; apply body_works; auto; intros u CU; apply (IC u CU)).
  assert (KEY : forall c f, p_plain (field_properties t) = YCls c \/ p_plain (field_properties t) = YFwd c -> key_field env c f -> bodied (f_type f) /\ settled (p_plain (field_properties (f_type f)))).
  { intros c f [E|E] KF.
    - assert (MF := MK c f E KF). assert (GF := IK c f E KF). destruct GF as (_ & B & _). split; [|exact (makeable_settled _ MF)].
      apply B. assert (PF := makeable_primary _ MF). destruct (PF (key_field_primary _ _ KF)) as [-> | ->]; intros [].
    - assert (CC : component env (p_plain (field_properties t)) (YCls c)) by (rewrite E; constructor). destruct (IC _ CC) as (_ & _ & K). apply (K c f); auto. }
  split; [|split; [exact NB|exact KEY]]. set (p := field_properties t) in *. set (ft := field_type p).
  assert (UF : unwrap ft = p_plain p) by (unfold ft, field_type, mk_ann; destruct (p_meta p); destruct (p_plain p); try reflexivity; destruct S).
  assert (BYKEY : forall c, p_primary p = false -> (forall f, key_field env c f -> bodied (f_type f) /\ settled (p_plain (field_properties (f_type f)))) -> has_key env c = true -> reference_to_key env ft = key_type_of env c -> created t).
  { intros c NP K HK RT. destruct (key_type_found c HK) as (f & KF & KT). destruct (K f KF) as [B SF]. destruct (bodied_field _ SF B) as (B' & NN & PP).
    apply (finish t (field_type (field_properties (f_type f)))); [rewrite <- KT; exact RT| |exact NN|exact B']. intros P. change (field_properties t) with p in P. congruence. }
  assert (SELF : reference_to_key env ft = Ok ft -> ~ reference_type (p_plain p) -> created t).
  { intros RT NR. destruct (bodied_field t S (NB NR)) as (B' & NN & PP). apply (finish t ft); auto. intros P. fold p in PP. fold ft in PP. rewrite PP. now apply PK. }
  assert (NPK : forall c, p_plain p = YCls c \/ p_plain p = YFwd c \/ (exists l, p_plain p = YUnion l) -> p_primary p = false).
  { intros c X. destruct (p_primary p) eqn:P; [|reflexivity]. exfalso. destruct (PK eq_refl) as [Y | Y]; rewrite Y in X; destruct X as [X | [X | [l X]]]; discriminate X. }
  assert (EV : (exists c, ft = YFwd c /\ p_plain p = YFwd c /\ evaluate ft = YCls c) \/ (evaluate ft = ft /\ forall c, p_plain p <> YFwd c)).
  { destruct (p_plain p) eqn:PP; try (right; split; [|discriminate]; unfold ft, field_type, mk_ann; destruct (p_meta p); rewrite PP; reflexivity).
    left. exists c. assert (ME : p_meta p = []) by (inversion SU; subst; auto; match goal with X : In _ _ |- _ => repeat destruct X as [X|X]; try discriminate X; destruct X end).
      assert (F : ft = YFwd c) by (unfold ft, field_type, mk_ann; now rewrite ME, PP). rewrite F. auto. }
  destruct EV as [(c & E1 & E2 & E3) | [E3 NF]].
  - assert (CC : component env (p_plain p) (YCls c)) by (rewrite E2; constructor). assert (GC := IC _ CC). destruct GC as (_ & BC & KC).
    destruct (entity_of env (YCls c)) as [c'|] eqn:EN.
    + assert (c' = c) by (apply entity_cls in EN; cbn in EN; congruence). subst c'. destruct (entity_reference _ _ EN) as (fs & a & d & ps & _ & HK). apply (BYKEY c); [apply (NPK c); auto| |exact HK|].
      * intros f KF. apply (KEY c f); auto.
      * unfold reference_to_key. rewrite E3. change (is_optional (unwrap (YCls c))) with false. cbn iota. unfold required_reference. cbn [unwrap]. now rewrite EN.
    + assert (RT : reference_to_key env ft = Ok (YCls c)).
      { unfold reference_to_key. rewrite E3. change (is_optional (unwrap (YCls c))) with false. cbn iota. unfold required_reference. cbn [unwrap]. rewrite EN. reflexivity. }
      apply (finish t (YCls c)); [exact RT| |reflexivity|apply BC; now apply no_entity_reference].
      intros P. change (field_properties t) with p in P. rewrite (NPK c) in P; [discriminate|auto].
  - assert (NO : is_optional (p_plain p) = false).
    { unfold is_optional. destruct (p_plain p); cbn in S; try reflexivity; try contradiction. cbn. destruct S as [S' _]. destruct (existsb is_none l) eqn:E; [|reflexivity]. exfalso. apply existsb_exists in E as (x & I & X). destruct x; try discriminate X. auto. }
    assert (RT : reference_to_key env ft = required_reference env ft) by (unfold reference_to_key; now rewrite E3, UF, NO).
    destruct (entity_of env (p_plain p)) as [c|] eqn:EN.
    + assert (PC : p_plain p = YCls c) by (apply entity_cls in EN; destruct (p_plain p); cbn in EN; congruence || destruct S).
      destruct (entity_reference _ _ EN) as (fs & a & d & ps & _ & HK). apply (BYKEY c); [apply (NPK c); auto|intros f KF; apply (KEY c f); auto|exact HK|]. rewrite RT. unfold required_reference. now rewrite UF, EN.
    + assert (NR : ~ reference_type (p_plain p)) by (apply no_entity_reference; auto; destruct (p_plain p); auto; now destruct (NF c)).
      destruct (is_union (p_plain p)) eqn:IU; [|apply SELF; [|exact NR]; rewrite RT; unfold required_reference; now rewrite UF, EN, IU].
      assert (PU : exists l, p_plain p = YUnion l) by (unfold is_union in IU; destruct (p_plain p); try discriminate IU; [destruct S|eauto]). destruct PU as (l & PU).
      set (ms := map evaluate (filter (fun t => negb (is_none t)) l)).
      assert (RT2 : reference_to_key env ft = if forallb (is_entity env) ms then match ms with m :: _ => match entity_of env m with Some c => key_type_of env c | None => Err "TypeError" end | [] => Err "IndexError" end else Ok ft).
      { rewrite RT. unfold required_reference. rewrite UF, EN, IU, PU. reflexivity. }
      destruct (forallb (is_entity env) ms) eqn:FA; [|apply SELF; auto].
      assert (NE : exists x l', l = x :: l') by (rewrite PU in SU; inversion SU; subst; eauto; match goal with X : In _ _ |- _ => repeat destruct X as [X|X]; try discriminate X; destruct X end).
      destruct NE as (x & l' & ->). assert (FX : exists m', ms = evaluate x :: m').
      { unfold ms. cbn [filter]. destruct (is_none x) eqn:N; [|cbn; eauto]. exfalso. rewrite PU in S. destruct S as [S' _]. destruct x; try discriminate N. apply S'. now left. }
      destruct FX as (m' & MS). rewrite MS in FA, RT2. cbn [forallb] in FA. apply andb_prop in FA as [FA _]. unfold is_entity in FA. destruct (entity_of env (evaluate x)) as [c|] eqn:EX; [|discriminate FA].
      destruct (entity_reference _ _ EX) as (fs & a & d & ps & _ & HK). apply (BYKEY c); [apply (NPK c); eauto| |exact HK|exact RT2].
      assert (GX : good x) by (apply IC; rewrite PU; constructor; now left). destruct GX as (_ & _ & KX). intros f KF. apply (KX c f); [|exact KF]. apply entity_cls in EX.
      destruct x as [| | | | | | | | | | | | | | | | |c0|c0|x0 ms0|l0|x0|x0|l0]; cbn in EX; try discriminate EX.
      * injection EX as ->. now left.
      * injection EX as ->. now right.
      * subst x0. now left.
Qed.
End Total.
