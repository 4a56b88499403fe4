(** Proofs about derived data-classes. *)
From Verif Require Import PyStr QuoteModel ObjectDict Types Objects Convert ConvertSpec ConvertProofs PropsConvert Flat FlatSpec PropsFlat Entity EntitySpec.
From Verif Require TextProofs1.
From Coq Require Import List Lia Permutation Arith.
Import ListNotations.
Open Scope string_scope.
Open Scope list_scope.

(** ** Python's rules *)
Lemma distinct_ok l : distinct l = true <-> NoDup l.
Proof.
  induction l as [|x l IH]; cbn; [split; [constructor|reflexivity]|]. rewrite Bool.andb_true_iff, Bool.negb_true_iff, IH. split.
  - intros [H N]. constructor; [|exact N]. intros I. rewrite (proj2 (existsb_exists (String.eqb x) l)) in H; [discriminate|]. exists x. split; [exact I|apply String.eqb_refl].
  - intros N. inversion N; subst. split; [|assumption]. destruct (existsb (String.eqb x) l) eqn:E; [|reflexivity]. apply existsb_exists in E as (y & I & E). apply String.eqb_eq in E. subst y. contradiction.
Qed.
Lemma required_dec m : has_default m = false <-> required m.
Proof. unfold has_default, required. destruct (m_factory m), (f_default (m_field m)); cbn; intuition discriminate. Qed.
Lemma ordered_seen l : ordered true l = true <-> forall m, In m l -> has_default m = true.
Proof.
  induction l as [|x l IH]; cbn; [split; [intros _ ? []|reflexivity]|]. destruct (has_default x) eqn:E; cbn.
  - rewrite IH. split; [intros H m [<-|I]; auto|intros H m I; apply H; now right].
  - split; [discriminate|]. intros H. rewrite (H x (or_introl eq_refl)) in E. discriminate.
Qed.
Lemma ordered_ok l : ordered false l = true <-> forall a m b n c, l = a ++ m :: b ++ n :: c -> required n -> required m.
Proof.
  induction l as [|x l IH]; cbn [ordered]; [split; [intros _ [|] ? ? ? ? E; discriminate E|reflexivity]|]. destruct (has_default x) eqn:E.
  - rewrite ordered_seen. split.
    + intros H [|y a] m b n c El R.
      * injection El as <- ->. apply required_dec in R. rewrite H in R; [discriminate R|apply in_or_app; right; now left].
      * injection El as <- ->. apply required_dec in R. rewrite H in R; [discriminate R|apply in_or_app; right; right; apply in_or_app; right; now left].
    + intros H m I. destruct (has_default m) eqn:Em; [reflexivity|]. apply in_split in I as (b & c & ->). specialize (H [] x b m c eq_refl (proj1 (required_dec m) Em)). apply required_dec in H. congruence.
  - cbn [negb andb]. rewrite IH. split.
    + intros H [|y a] m b n c El R; [injection El as <- ->; now apply required_dec|]. injection El as <- ->. exact (H a m b n c eq_refl R).
    + intros H a m b n c -> R. exact (H (x :: a) m b n c eq_refl R).
Qed.
Lemma py_make_legal l l' : py_make l = Ok l' <-> l' = l /\ legal l.
Proof.
  unfold py_make, legal. destruct (distinct (map m_name l)) eqn:D, (ordered false l) eqn:O; cbn [andb]; split; intros H; try discriminate H.
  - injection H as <-. split; [reflexivity|]. split; [now apply distinct_ok|now apply ordered_ok].
  - destruct H as (-> & _). reflexivity.
  - destruct H as (_ & _ & H). apply ordered_ok in H. congruence.
  - destruct H as (_ & H & _). apply distinct_ok in H. congruence.
  - destruct H as (_ & H & _). apply distinct_ok in H. congruence.
Qed.

(** ** Entities *)
Lemma key_loop_skip key : forall l k vs, ~ In key (map m_name l) -> key_value_loop key k vs l = (k, vs ++ map m_field l).
Proof.
  induction l as [|m l IH]; intros k vs N; cbn [key_value_loop map]; [now rewrite app_nil_r|]. destruct (String.eqb_spec (m_name m) key) as [E|_]; [destruct N; now left|].
  rewrite IH by (intros I; apply N; now right). now rewrite <- app_assoc.
Qed.
Lemma key_loop_split key a k b : ~ In key (map m_name a) -> ~ In key (map m_name b) -> m_name k = key ->
  key_value_fields (a ++ k :: b) key = Ok (m_field k, map m_field (a ++ b)).
Proof.
  intros Na Nb E. unfold key_value_fields. assert (G : forall vs, key_value_loop key None vs (a ++ k :: b) = (Some (m_field k), vs ++ map m_field (a ++ b))).
  { induction a as [|m a IH]; intros vs; cbn [app key_value_loop].
    - rewrite E, String.eqb_refl. now apply key_loop_skip.
    - destruct (String.eqb_spec (m_name m) key) as [Em|_]; [destruct Na; now left|]. rewrite IH by (intros I; apply Na; now right). cbn [map]. now rewrite <- app_assoc. }
  now rewrite G.
Qed.
Lemma entity_fields l key l' : NoDup (map m_name l) -> make_entity l key = Ok l' ->
  exists a k b, l = a ++ k :: b /\ m_name k = key /\ legal l' /\
    map m_field l' = Fld (f_name (m_field k)) (mk_ann (f_type (m_field k)) [MPrimary]) (f_default (m_field k)) :: map m_field (a ++ b).
Proof.
  intros N H. unfold make_entity in H. apply TextProofs1.bind_inv in H as ((kf & vs) & K & H). destruct (in_dec string_dec key (map m_name l)) as [I|I].
  - apply in_map_iff in I as (k & E & I). apply in_split in I as (a & b & ->). rewrite map_app in N. cbn [map] in N. apply NoDup_remove in N as [N N']. rewrite E in N'.
    rewrite (key_loop_split key a k b) in K; [|intros J; apply N', in_or_app; auto|intros J; apply N', in_or_app; auto|exact E]. injection K as <- <-.
    apply py_make_legal in H as [-> L]. exists a, k, b. split; [reflexivity|]. split; [exact E|]. split; [exact L|]. generalize (map m_field (a ++ b)) as zs. intros zs. cbn. f_equal. induction zs as [|z zs IHz]; [reflexivity|]. cbn. now rewrite IHz.
  - unfold key_value_fields in K. rewrite key_loop_skip in K by exact I. discriminate K.
Qed.
Lemma mk_ann_primary t : exists u ms, mk_ann t [MPrimary] = YAnn u ms /\ In MPrimary ms.
Proof. destruct t; cbn; try (do 2 eexists; split; [reflexivity|now left]). do 2 eexists. split; [reflexivity|]. apply in_or_app. right. now left. Qed.
Lemma mk_ann_admits t ms : admits_none (mk_ann t ms) <-> admits_none t.
Proof.
  destruct ms as [|m ms]; [reflexivity|]. destruct t; cbn; split; intros H; try (now inversion H); try (now constructor); inversion H; subst; try assumption; now constructor.
Qed.
Lemma mk_ann_identity t : tagged MIdentity (mk_ann t [MPrimary]) <-> tagged MIdentity t.
Proof.
  assert (G : forall u ns, tagged MIdentity (YAnn u (ns ++ [MPrimary])) <-> tagged MIdentity u \/ In MIdentity ns).
  { intros u ns. split.
    - intros H. inversion H; subst; [|now left]. right. match goal with X : In _ (_ ++ _) |- _ => apply in_app_or in X as [X|[X|[]]]; [exact X|discriminate X] end.
    - intros [H|H]; [now apply tg_ann|apply tg_here, in_or_app; now left]. }
  destruct t; cbn [mk_ann]; try (etransitivity; [exact (G _ [])|]; cbn; intuition).
  rewrite G. split; [intros [H|H]; [now apply tg_ann|now apply tg_here]|]. intros H. inversion H; subst; auto.
Qed.
Lemma keyed_mk t : keyed t (mk_ann t [MPrimary]).
Proof. destruct t; cbn; try (left; split; [discriminate|reflexivity]). right. eauto. Qed.
Lemma keyed_wf t t' : keyed t t' -> py_wf t -> py_wf t'.
Proof.
  intros [[N ->]|(u & ns & -> & ->)] W; [now apply wf_ann|]. inversion W; subst; [cbn in *; contradiction|]. apply wf_ann; [assumption| |assumption]. now destruct ns.
Qed.
(** an entity is made of every legal class whose fields have no factories, if the key has no default *)
Lemma entity_made l key : legal l -> In key (map m_name l) -> (forall m, In m l -> m_factory m = false) -> (forall m, In m l -> m_name m = key -> required m) ->
  exists l', make_entity l key = Ok l'.
Proof.
  intros [N O] I F R. apply in_map_iff in I as (k & E & I). pose proof (R k I E) as Rk. apply in_split in I as (a & b & ->). pose proof N as N0. rewrite map_app in N. cbn [map] in N. apply NoDup_remove in N as [N N']. rewrite E in N'.
  unfold make_entity. rewrite (key_loop_split key a k b); [|intros J; apply N', in_or_app; auto|intros J; apply N', in_or_app; auto|exact E]. cbn [bind].
  eexists. apply py_make_legal. split; [reflexivity|].
  assert (ID : map plain_field (map m_field (a ++ b)) = a ++ b).
  { assert (F' : forall m, In m (a ++ b) -> m_factory m = false) by (intros m J; apply F; apply in_app_iff in J as [J|J]; apply in_or_app; [auto|right; now right]). clear - F'. induction (a ++ b) as [|[f y] zs IH]; [reflexivity|]. cbn. rewrite IH by (intros m J; apply F'; now right). pose proof (F' _ (or_introl eq_refl)) as X. cbn in X. now subst y. }
  rewrite ID. split.
  - cbn [map]. constructor; [|rewrite map_app; exact N]. rewrite map_app. unfold m_name at 1. cbn. fold (m_name k). rewrite E. exact N'.
  - apply ordered_ok. cbn [ordered has_default plain_field m_factory m_field f_default]. unfold has_default. cbn. rewrite (proj2 Rk). cbn. apply ordered_ok in O. apply required_dec in Rk. clear - O Rk.
    induction a as [|x a IH]; cbn [app ordered] in *; [rewrite Rk in O; exact O|]. destruct (has_default x); [|exact (IH O)].
    rewrite ordered_seen in O. rewrite (O k) in Rk; [discriminate Rk|apply in_or_app; right; now left].
Qed.

(** ** Flat classes *)
Lemma filter_id {A} (p : A -> bool) l : (forall x, In x l -> p x = true) -> filter p l = l.
Proof. induction l as [|x l IH]; intros H; [reflexivity|]. cbn. rewrite (H x (or_introl eq_refl)). f_equal. apply IH. intros y I. apply H. now right. Qed.
Lemma remove_first_filter l : NoDup l -> remove_first l = filter (fun x => negb (is_default_tag x)) l.
Proof.
  induction l as [|x l IH]; intros N; [reflexivity|]. inversion N; subst. cbn [remove_first filter]. destruct (is_default_tag x) eqn:E; cbn [negb]; [|f_equal; now apply IH].
  destruct x; try discriminate E. symmetry. apply filter_id. intros y I. destruct y; try reflexivity. contradiction.
Qed.
Lemma forall_none {A} (p : A -> bool) l : existsb p l = false -> filter (fun x => negb (p x)) l = l.
Proof. intros E. apply filter_id. intros x I. destruct (p x) eqn:P; [|reflexivity]. rewrite (proj2 (existsb_exists p l)) in E; [discriminate E|eauto]. Qed.
Lemma only_member b l : NoDup l -> In b l -> (forall x, In x l -> x = b \/ x = YNone \/ x = YDefault) -> is_none b = false -> is_default_tag b = false ->
  filter (fun x => negb (is_none x)) (filter (fun x => negb (is_default_tag x)) l) = [b].
Proof.
  intros N I A B1 B2. assert (G : forall m, NoDup m -> (forall x, In x m -> x = b) -> In b m -> m = [b]).
  { intros m Nm Am Im. destruct m as [|x [|y m]]; [destruct Im|now rewrite (Am x (or_introl eq_refl))|]. rewrite (Am x (or_introl eq_refl)), (Am y (or_intror (or_introl eq_refl))) in Nm. inversion Nm; subst. cbn in *. tauto. }
  apply G; [now apply NoDup_filter, NoDup_filter| |].
  - intros x J. apply filter_In in J as [J E1]. apply filter_In in J as [J E2]. destruct (A x J) as [H|[-> | ->]]; [exact H|discriminate E1|discriminate E2].
  - apply filter_In. rewrite B1. split; [|reflexivity]. apply filter_In. now rewrite B2.
Qed.
Lemma mk_ann_nil t : mk_ann t [] = t. Proof. reflexivity. Qed.
Lemma plain_class t c : py_wf t -> open_unions t -> (p_plain (field_properties t) = YCls c <-> of_class t c).
Proof.
  intros W OU. unfold field_properties. cbn [p_plain]. set (a := unwrap t).
  assert (AU : annotated t a) by (destruct t; cbn in a; subst a; unfold annotated; eauto).
  assert (NA : forall u ns, a <> YAnn u ns). { intros u ns E. subst a. destruct t; cbn in E; try discriminate E. inversion W; subst; [contradiction|]. match goal with X : forall u ns, _ <> _ |- _ => eapply X; reflexivity end. }
  assert (Wa : py_wf a). { subst a. destruct t; try exact W. inversion W; subst; [contradiction|assumption]. }
  assert (UQ : forall a', annotated t a' -> (forall u ns, a' <> YAnn u ns) -> a' = a).
  { intros a' [E|[ms E]] N'; [|subst a; rewrite E; reflexivity]. subst a'. subst a. destruct t; try reflexivity. destruct (N' _ _ eq_refl). }
  assert (UC : forall b, annotated t b -> annotated b (YCls c) -> a = YCls c).
  { intros b A1 [E | [ms E]]; subst b; [symmetry; apply UQ; [exact A1|discriminate]|]. destruct A1 as [E | [ms' E]]; subst a; rewrite E; [reflexivity|]. rewrite E in NA. destruct (NA (YCls c) ms eq_refl). }
  destruct a as [| | | | | | | | | | | | | | | | |d|d|u ns|l|u|u|vs] eqn:Ea; try (destruct (NA _ _ eq_refl)).
  20: {
    assert (ND : NoDup l) by (inversion Wa; subst; [contradiction|assumption]). assert (L2 : 2 <= length l) by (inversion Wa; subst; [contradiction|assumption]).
    assert (NU : forall m, ~ In (YUnion m) l) by (inversion Wa; subst; [contradiction|assumption]).
    assert (PL : forall x, In x l -> is_optional x = false).
    { intros x I. unfold is_optional. destruct x; cbn; try reflexivity; [|destruct (NU _ I)]. destruct x; try reflexivity. destruct (OU l l0 ms AU I). }
    pose (nd := filter (fun x => negb (is_default_tag x)) l).
    assert (DD : is_union (YUnion l) && existsb is_default_tag (union_members (YUnion l)) = false -> (forall b, In b l -> existsb is_none l = true -> is_none b = false -> is_default_tag b = false -> nd = l) /\ (existsb is_default_tag l = false \/ existsb is_none l = true /\ length l = 2)).
    { change ((Nat.ltb 2 (length l) || negb (existsb is_none l)) && existsb is_default_tag l = false -> (forall b, In b l -> existsb is_none l = true -> is_none b = false -> is_default_tag b = false -> nd = l) /\ (existsb is_default_tag l = false \/ existsb is_none l = true /\ length l = 2)). intros E. destruct (existsb is_default_tag l) eqn:ED; [|split; [intros; now apply forall_none|now left]]. rewrite Bool.andb_true_r in E. apply Bool.orb_false_iff in E as [E1 E2]. apply Bool.negb_false_iff in E2. apply Nat.ltb_ge in E1.
      split; [|right; split; [exact E2|lia]]. intros b Ib _ B1 B2. exfalso. apply existsb_exists in ED as (x & Ix & X). apply existsb_exists in E2 as (y & Iy & Y).
      assert (I3 : incl [b; x; y] l) by (intros z [<-|[<-|[<-|[]]]]; assumption).
      assert (N3 : NoDup [b; x; y]). { repeat constructor; cbn; intros J; repeat destruct J as [J|J]; try contradiction; subst; try congruence; destruct x; discriminate. }
      pose proof (NoDup_incl_length N3 I3) as Z. cbn in Z. lia. }
    unfold drop_default. cbn [union_members unwrap] in *. split.
    - (* from the program to the specification *)
      intros H. assert (X : exists x, In x l /\ unwrap x = YCls c /\ forall y, In y l -> y = x \/ y = YNone \/ y = YDefault).
      { assert (DT : forall y, is_default_tag y = true -> y = YDefault) by (intros []; try discriminate; reflexivity). assert (NT : forall y, is_none y = true -> y = YNone) by (intros []; try discriminate; reflexivity).
        destruct (is_union (YUnion l) && existsb is_default_tag l)%bool.
        - rewrite (remove_first_filter l ND) in H. fold nd in H. assert (NDIn : forall y, In y l -> In y nd \/ y = YDefault).
          { intros y I. destruct (is_default_tag y) eqn:E; [right; now apply DT|left; apply filter_In; now rewrite E]. }
          assert (NDl : forall y, In y nd -> In y l) by (intros y I; apply filter_In in I; apply I).
          destruct nd as [|x [|y r]] eqn:En.
          + cbn in H. discriminate H.
          + cbn [mk_union] in H. rewrite PL in H by (apply NDl; now left). exists x. split; [apply NDl; now left|]. split; [exact H|]. intros z I. destruct (NDIn z I) as [[<-|[]]| ->]; auto.
          + cbn [mk_union] in H. unfold is_optional in H. cbn [unwrap] in H. destruct (existsb is_none (x :: y :: r)) eqn:EN; [|discriminate H].
            unfold unwrap_optional in H. cbn [unwrap metadata] in H. rewrite mk_ann_nil in H. destruct (filter (fun z => negb (is_none z)) (x :: y :: r)) as [|w [|w' ws]] eqn:EF; try discriminate H.
            cbn [mk_union] in H. assert (Iw : In w (x :: y :: r)) by (apply (proj1 (filter_In (fun z => negb (is_none z)) w (x :: y :: r))); rewrite EF; now left).
            exists w. split; [now apply NDl|]. split; [exact H|]. intros z I. destruct (NDIn z I) as [J| ->]; [|auto]. destruct (is_none z) eqn:Z; [right; left; now apply NT|left].
            assert (J' : In z [w]) by (rewrite <- EF; apply filter_In; now rewrite Z). destruct J' as [<-|[]]. reflexivity.
        - unfold is_optional in H. cbn [unwrap] in H. destruct (existsb is_none l) eqn:EN; [|discriminate H]. unfold unwrap_optional in H. cbn [unwrap metadata] in H. rewrite mk_ann_nil in H.
          destruct (filter (fun z => negb (is_none z)) l) as [|w [|w' ws]] eqn:EF; try discriminate H. cbn [mk_union] in H.
          assert (Iw : In w l) by (apply (proj1 (filter_In (fun z => negb (is_none z)) w l)); rewrite EF; now left). exists w. split; [exact Iw|]. split; [exact H|].
          intros z J. destruct (is_none z) eqn:Z; [right; left; now apply NT|left]. assert (J' : In z [w]) by (rewrite <- EF; apply filter_In; now rewrite Z). destruct J' as [<-|[]]. reflexivity. }
      destruct X as (x & Ix & Ux & All). exists (YUnion l), x. split; [exact AU|]. split; [|right; eauto]. destruct x; cbn in Ux; try discriminate Ux; [left; exact Ux|right; rewrite Ux; eauto].
    - intros (a' & b & A1 & A2 & H). assert (B1 : is_none b = false /\ is_default_tag b = false /\ unwrap b = YCls c) by (destruct A2 as [-> | [ms ->]]; repeat split; reflexivity). destruct B1 as (B1 & B2 & B3).
      destruct H as [-> | (l' & -> & Ib & All)].
      + exfalso. destruct A2 as [-> | [ms ->]].
        * specialize (UQ (YCls c) A1 ltac:(discriminate)). discriminate UQ.
        * destruct A1 as [-> | [ms' ->]]; [cbn in Ea; discriminate Ea|]. cbn in Ea. discriminate Ea.
      + specialize (UQ (YUnion l') A1 ltac:(discriminate)). injection UQ as ->. pose proof (only_member b l ND Ib All B1 B2) as F. fold nd in F.
        assert (E1 : (if (is_union (YUnion l) && existsb is_default_tag l)%bool then mk_union (remove_first l) else YUnion l) = mk_union nd).
        { destruct (is_union (YUnion l) && existsb is_default_tag l)%bool eqn:Q; [now rewrite (remove_first_filter l ND)|]. destruct (DD eq_refl) as [D1 D2].
          assert (En : nd = l). { destruct D2 as [D2|[D2 _]]; [now apply forall_none|exact (D1 b Ib D2 B1 B2)]. }
          rewrite En. destruct l as [|x [|y r]]; cbn in L2; try lia. reflexivity. }
        rewrite E1. destruct nd as [|x [|y r]] eqn:En.
        * discriminate F.
        * assert (x = b) as ->. { cbn in F. destruct (is_none x); cbn in F; [discriminate F|now injection F]. } cbn [mk_union]. rewrite (PL b Ib). exact B3.
        * cbn [mk_union]. assert (EN : existsb is_none (x :: y :: r) = true). { destruct (existsb is_none (x :: y :: r)) eqn:Z; [reflexivity|]. rewrite (forall_none is_none _ Z) in F. discriminate F. }
          unfold is_optional. cbn [unwrap]. rewrite EN. unfold unwrap_optional. cbn [unwrap metadata]. rewrite mk_ann_nil, F. exact B3. }
  all: cbn; split; [intros H; try discriminate H|intros (a' & b & A1 & A2 & [-> | (l' & -> & _)]); [pose proof (UC b A1 A2) as X; try discriminate X; exact X|specialize (UQ (YUnion l') A1 ltac:(discriminate)); discriminate UQ]].
  injection H as ->. exists (YCls c), (YCls c). split; [exact AU|]. split; [now left|now left].
Qed.
Lemma struct_plain_spec env t c : py_wf t -> open_unions t -> (struct_plain env t = Some c <-> of_class t c /\ struct env c).
Proof.
  intros W OU. unfold struct_plain. assert (SO : forall c', struct_of env (YCls c') = Some c <-> c' = c /\ struct env c).
  { intros c'. unfold struct_of, dataclass_of, struct. cbn [unwrap]. split.
    - destruct (env c') as [fs a d ps| |] eqn:E; try discriminate. destruct (has_key env c') eqn:K; [discriminate|]. intros H. injection H as <-. split; [reflexivity|]. do 4 eexists. split; [exact E|].
      intros f I (u & ms & Ef & Im). unfold has_key, fields_of in K. rewrite E in K. rewrite (proj2 (existsb_exists _ fs)) in K; [discriminate K|]. exists f. split; [exact I|]. rewrite Ef. unfold is_primary_key_type. cbn. apply existsb_exists. exists MPrimary. split; [exact Im|now apply meta_eqb_eq].
    - intros [-> (fs & a & d & ps & E & N)]. rewrite E. unfold has_key, fields_of. rewrite E. destruct (existsb _ fs) eqn:K; [|reflexivity]. apply existsb_exists in K as (f & I & K). destruct (N f I).
      unfold is_primary_key_type in K. apply existsb_exists in K as (m & Im & K). apply meta_eqb_eq in K. subst m. unfold key_field. destruct (f_type f); cbn in Im; try contradiction. eauto. }
  pose proof (plain_class t) as PC. destruct (p_plain (field_properties t)) as [| | | | | | | | | | | | | | | | |d| | | | | |] eqn:E;
    try (split; [discriminate|intros [H _]; apply PC in H; auto; discriminate H]).
  rewrite SO. rewrite <- (PC c W OU). split; intros [H S]; (split; [congruence|exact S]).
Qed.

Lemma nodup_parts {A} (a b : list A) : NoDup (a ++ b) <-> NoDup a /\ NoDup b /\ forall x, In x a -> In x b -> False.
Proof.
  induction a as [|x a IH]; cbn.
  - split; [intros N; split; [constructor|split; [exact N|intros y []]]|intros (_ & N & _); exact N].
  - split.
    + intros N. inversion N; subst. apply IH in H2 as (N1 & N2 & D). split; [constructor; [intros I; apply H1, in_or_app; auto|exact N1]|]. split; [exact N2|]. intros y [<-|I] J; [apply H1, in_or_app; auto|eauto].
    + intros (N1 & N2 & D). inversion N1; subst. constructor; [intros I; apply in_app_or in I as [I|I]; [contradiction|exact (D x (or_introl eq_refl) I)]|]. apply IH. split; [assumption|]. split; [exact N2|]. intros y I J. exact (D y (or_intror I) J).
Qed.
Section Parts.
  Variable env : cid -> classdef.
  Definition part (m : mfield) : list dfield :=
    match struct_plain env (f_type (m_field m)) with
    | Some c => map (fun g => Fld (nested_name (f_name (m_field m)) (f_name g)) (f_type g) (f_default g)) (fields_of env c)
    | None => [m_field m]
    end.
  Definition assigns (m : mfield) : list (string * string) :=
    match struct_plain env (f_type (m_field m)) with
    | Some c => flat_map (fun g => match get_param (f_name g) (params_of env c) with Some d => [(nested_name (f_name (m_field m)) (f_name g), d)] | None => [] end) (fields_of env c)
    | None => []
    end.
  Definition setp (ps : list (string * string)) (p : string * string) := set_param (fst p) (snd p) ps.
  Lemma flatten_parts : forall l acc ps, fold_left (flatten_step env) l (acc, ps) = (acc ++ flat_map part l, fold_left setp (flat_map assigns l) ps).
  Proof.
    induction l as [|m l IH]; intros acc ps; cbn [fold_left flat_map]; [now rewrite app_nil_r|]. unfold flatten_step at 2. unfold part at 1, assigns at 1. destruct (struct_plain env (f_type (m_field m))) as [c|].
    - rewrite IH, <- app_assoc, fold_left_app. f_equal. f_equal. generalize (fields_of env c) as gs. intros gs. revert ps. induction gs as [|g gs IHg]; intros ps; [reflexivity|]. cbn [fold_left flat_map].
      rewrite fold_left_app. rewrite IHg. destruct (get_param _ _); reflexivity.
    - rewrite IH, <- app_assoc. reflexivity.
  Qed.
  Lemma set_in n d ps x : In x (set_param n d ps) <-> x = (n, d) \/ In x ps /\ fst x <> n.
  Proof.
    unfold set_param. rewrite in_app_iff, filter_In. cbn. rewrite Bool.negb_true_iff, String.eqb_neq. intuition congruence.
  Qed.
  Lemma sets_in : forall A ps x, NoDup (map fst A) -> (In x (fold_left setp A ps) <-> In x A \/ In x ps /\ ~ In (fst x) (map fst A)).
  Proof.
    induction A as [|[n d] A IH]; intros ps x N; cbn [fold_left map fst]; [cbn; intuition|]. cbn in N. inversion N; subst. rewrite IH by assumption. unfold setp. cbn [fst snd]. rewrite set_in. cbn [In].
    split.
    - intros [I|[[-> |[I Ne]] NI]]; [auto|auto|]. right. split; [exact I|]. intros [E|J]; [now apply Ne|contradiction].
    - intros [[<- | I]|[I NI]]; [right; split; [now left|exact H1]|auto|]. right. split; [right; split; [exact I|]|]; intros J; apply NI; [left; congruence|now right].
  Qed.
  Lemma assigns_names m : exists k, map f_name (part m) = k /\ incl (map fst (assigns m)) k /\ (NoDup k -> NoDup (map fst (assigns m))).
  Proof.
    eexists. split; [reflexivity|]. unfold part, assigns. destruct (struct_plain env (f_type (m_field m))) as [c|]; [|split; [intros x []|constructor]].
    rewrite map_map. cbn. generalize (fields_of env c) as gs. induction gs as [|g gs [IH1 IH2]]; [split; [intros x []|constructor]|]. cbn [flat_map map]. rewrite map_app. split.
    - intros x I. apply in_app_or in I as [I|I]; [|right; now apply IH1]. destruct (get_param _ _); [|destruct I]. destruct I as [<-|[]]. now left.
    - intros N. inversion N; subst. destruct (get_param _ _); cbn; [constructor; [intros J; apply H1, IH1, J|]|]; now apply IH2.
  Qed.
  Lemma assigns_nodup l : NoDup (map f_name (flat_map part l)) -> NoDup (map fst (flat_map assigns l)) /\ incl (map fst (flat_map assigns l)) (map f_name (flat_map part l)).
  Proof.
    induction l as [|m l IH]; intros N; [split; [constructor|intros x []]|]. cbn [flat_map] in *. rewrite !map_app in *. destruct (assigns_names m) as (k & <- & Ik & Nk).
    apply nodup_parts in N as (N1 & N2 & D). destruct (IH N2) as [IH1 IH2]. split.
    - apply nodup_parts. split; [now apply Nk|]. split; [exact IH1|]. intros x I J. exact (D x (Ik x I) (IH2 x J)).
    - intros x I. apply in_app_or in I as [I|I]; apply in_or_app; auto.
  Qed.
End Parts.
