(** Proofs about the conversion of data-classes, part 1: fields and columns. *)
From Verif Require Import PyStr QuoteModel ObjectDict ObjectDictProofs Types Objects Compat Convert ConvertSpec.
From Coq Require Import Permutation Lia.
Open Scope string_scope.

(** ** Induction principle, equality *)
Section Ind.
  Variable P : pytype -> Prop.
  Hypothesis HAnn : forall t ms, P t -> P (YAnn t ms).
  Hypothesis HUnion : forall l, Forall P l -> P (YUnion l).
  Hypothesis HList : forall t, P t -> P (YList t).
  Hypothesis HSet : forall t, P t -> P (YSet t).
  Hypothesis Hleaf : forall t, match t with YAnn _ _ | YUnion _ | YList _ | YSet _ => False | _ => True end -> P t.
  Fixpoint pytype_ind' (t : pytype) : P t.
  Proof.
    destruct t; try (apply Hleaf; exact I).
    - apply HAnn, pytype_ind'.
    - apply HUnion. induction l as [|x r IH]; constructor; [apply pytype_ind'|exact IH].
    - apply HList, pytype_ind'.
    - apply HSet, pytype_ind'.
  Defined.
End Ind.

Lemma cid_eqb_eq a b : cid_eqb a b = true -> a = b.
Proof.
  unfold cid_eqb. intros H. apply andb_prop in H as [A B]. apply String.eqb_eq in A. apply String.eqb_eq in B.
  destruct a, b; simpl in *; congruence.
Qed.
Lemma cid_eqb_refl a : cid_eqb a a = true.
Proof. unfold cid_eqb. now rewrite !String.eqb_refl. Qed.
Lemma meta_eqb_eq a b : meta_eqb a b = true <-> a = b.
Proof. unfold meta_eqb. destruct (meta_eq_dec a b); split; congruence. Qed.
Lemma py_eqb_eq a : forall b, py_eqb a b = true -> a = b.
Proof.
  induction a as [t ms IH|l IH|t IH|t IH|t L] using pytype_ind'; intros b.
  - destruct b; try discriminate. simpl.
    intros H. apply andb_prop in H as [A B]. apply IH in A. apply (list_eqb_eq _ meta_eqb_eq) in B. congruence.
  - destruct b; try discriminate. simpl.
    intros H. f_equal. revert l0 H. induction IH as [|x r Hx _ IHr]; intros [|y m]; try discriminate; [reflexivity|].
    intros H. apply andb_prop in H as [A B]. apply Hx in A. apply IHr in B. congruence.
  - destruct b; try discriminate. simpl. intros H. apply IH in H. congruence.
  - destruct b; try discriminate. simpl. intros H. apply IH in H. congruence.
  - destruct t; destruct L; destruct b; try discriminate; simpl; try reflexivity; intros H; apply cid_eqb_eq in H; congruence.
Qed.

(** ** Results *)
Lemma bind_inv {A B} (x : res A) (f : A -> res B) y : bind x f = Ok y -> exists a, x = Ok a /\ f a = Ok y.
Proof. destruct x; simpl; [eauto|discriminate]. Qed.
Ltac binds H := match type of H with bind ?x _ = Ok _ => let a := fresh "v" in let E := fresh "E" in apply bind_inv in H as (a & E & H) end.

Lemma map_res_all2 {A B} (f : A -> res B) l : forall r, map_res f l = Ok r -> Forall2 (fun a b => f a = Ok b) l r.
Proof.
  induction l as [|x l IH]; simpl; intros r H; [injection H as <-; constructor|].
  destruct (f x) eqn:E; [|discriminate]. simpl in H. destruct (map_res f l); [|discriminate]. injection H as <-. constructor; auto.
Qed.
Lemma all2_in_l {A B} (R : A -> B -> Prop) l r x : Forall2 R l r -> In x l -> exists y, In y r /\ R x y.
Proof. induction 1; simpl; [tauto|]. intros [<- | H1]; [eauto|]. destruct (IHForall2 H1) as (z & I & ?). eauto. Qed.
Lemma all2_in_r {A B} (R : A -> B -> Prop) l r y : Forall2 R l r -> In y r -> exists x, In x l /\ R x y.
Proof. induction 1; simpl; [tauto|]. intros [<- | H1]; [eauto|]. destruct (IHForall2 H1) as (z & I & ?). eauto. Qed.

Section Conv.
Variable env : cid -> classdef.
Variable o : copts.
Hypothesis Hsane : sane_options o.

Lemma subst_in t s : subst o t = Some s -> In (t, s) (o_subst o).
Proof.
  unfold subst. destruct (find _ _) as [[u s']|] eqn:E; [|discriminate]. intros [= <-].
  apply find_some in E as [I H]. apply py_eqb_eq in H. simpl in H. now subst.
Qed.
Lemma subst_none_free t s : subst o t = Some s -> ~ admits_none t.
Proof. intros H. apply subst_in in H. exact (proj1 Hsane _ _ H). Qed.
Lemma ns_get_in m n : ns_get o m = Ok n -> In (m, n) (o_ns o).
Proof.
  unfold ns_get. destruct (find _ _) as [[k v]|] eqn:E; [|discriminate]. intros [= <-].
  apply find_some in E as [I H]. apply String.eqb_eq in H. simpl in H. now subst.
Qed.
Lemma class_qid_module c q : class_qid o c = Ok q -> fst c <> "builtins" /\ fst c <> "pysqlsync.model.key_types".
Proof.
  unfold class_qid, qualified_id_of. intros H. binds H. apply ns_get_in in E. exact (proj2 Hsane _ _ E).
Qed.

Lemma parse_metas_none ms : forall s, parse_metas o None ms = Ok s -> s = None.
Proof. induction ms as [|m r IH]; simpl; intros s H; [congruence|]. destruct (o_skip o m); [auto|discriminate]. Qed.
Lemma none_unwrap t : admits_none t -> admits_none (unwrap t).
Proof. destruct t; simpl; auto. intros H. inversion H; subst; auto. Qed.
Lemma unwrap_none t : admits_none (unwrap t) -> admits_none t.
Proof. destruct t; simpl; auto. intros H. now constructor. Qed.
Lemma class_none t c : unwrap t = YCls c -> ~ admits_none t.
Proof. intros E H. apply none_unwrap in H. rewrite E in H. inversion H. Qed.
Lemma basic_sql_none_free t s : basic_sql t = Some s -> ~ admits_none t.
Proof. destruct t; simpl; intros H A; try discriminate; inversion A. Qed.
Lemma annotated_base_none_free t s : annotated_base o t = Some s -> ~ admits_none t.
Proof.
  unfold annotated_base. destruct (subst o t) eqn:E; [intros _; eapply subst_none_free; eauto|].
  destruct t; intros H A; try discriminate; inversion A.
Qed.
Lemma fixed_sql_none_free t s : fixed_sql o t = Some s -> ~ admits_none t.
Proof.
  intros H.
  assert (X : exists T, In T [py_int8; py_int16; py_int32; py_int64; py_uint8; py_uint16; py_uint32; py_uint64; py_float32; py_float64] /\ same_object o t T = true).
  { unfold fixed_sql in H.
    repeat match type of H with (if ?b then _ else _) = _ => destruct b eqn:?; [eexists; split; [|eassumption]; simpl; tauto|] end. discriminate. }
  destruct X as (T & I & E). unfold same_object in E. apply andb_prop in E as [E _]. apply py_eqb_eq in E. subst T. intros A.
  simpl in I. decompose [or] I; try contradiction; subst t; apply none_unwrap in A; inversion A.
Qed.
Lemma value_sql_none_free t s : value_sql o t = Ok (Some s) -> ~ admits_none t.
Proof.
  unfold value_sql. destruct (subst o t) eqn:E1; [intros _; eapply subst_none_free; eauto|].
  destruct (basic_sql t) eqn:E2; [intros _; eapply basic_sql_none_free; eauto|].
  destruct (fixed_sql o t) eqn:E3; [intros _; eapply fixed_sql_none_free; eauto|].
  destruct (metadata t) as [|m ms] eqn:E4; [discriminate|].
  destruct (annotated_base o (unwrap t)) eqn:E5.
  - intros _ A. apply none_unwrap in A. eapply annotated_base_none_free; eauto.
  - intros H. apply parse_metas_none in H. discriminate.
Qed.
Lemma simple_sql_none_free t s : simple_sql env o t = Ok s -> ~ admits_none t.
Proof.
  unfold simple_sql. intros H. binds H. destruct v as [s'|]; [eapply value_sql_none_free; eauto|].
  destruct (unwrap t) eqn:E1; try discriminate. eapply class_none; eauto.
Qed.
Lemma dataclass_unwrap t c : dataclass_of env t = Some c -> unwrap t = YCls c.
Proof. unfold dataclass_of. destruct (unwrap t); try discriminate. destruct (env c0); congruence. Qed.
Lemma entity_dataclass t c : entity_of env t = Some c -> dataclass_of env t = Some c /\ has_key env c = true.
Proof. unfold entity_of. destruct (dataclass_of env t); [|discriminate]. destruct (has_key env c0) eqn:E; [|discriminate]. intros [= <-]. auto. Qed.
Lemma entity_unwrap t c : entity_of env t = Some c -> unwrap t = YCls c.
Proof. intros H. apply entity_dataclass in H as [H _]. now apply dataclass_unwrap. Qed.
Lemma members_none t : is_union t = true -> admits_none t -> exists x, In x (union_members t) /\ admits_none x.
Proof.
  unfold is_union, union_members. intros U A. apply none_unwrap in A. destruct (unwrap t); try discriminate.
  inversion A; subst. eauto.
Qed.
Lemma evaluate_none x : admits_none x -> evaluate x = x.
Proof. intros A. destruct x; try reflexivity. inversion A. Qed.

(** A type that converts does not admit [None]: the converter has removed it before, or refuses the type. *)
Lemma member_sql_none_free fuel : forall t s, member_sql env o fuel t = Ok s -> ~ admits_none t.
Proof.
  induction fuel as [|n IH]; [discriminate|]. intros t s H A. simpl in H.
  destruct (subst o t) eqn:E1; [eapply subst_none_free; eauto|].
  destruct (is_simple env t) eqn:E2; [eapply simple_sql_none_free; eauto|].
  destruct (entity_of env t) eqn:E3; [eapply class_none; eauto using entity_unwrap|].
  destruct (dataclass_of env t) eqn:E4; [eapply class_none; eauto using dataclass_unwrap|].
  destruct (forward_of t) eqn:E5; [destruct t; try discriminate; inversion A|].
  pose proof (none_unwrap _ A) as A'.
  destruct (literals_of t) eqn:E6; [unfold literals_of in E6; destruct (unwrap t); try discriminate; inversion A'|].
  destruct (items_of t) eqn:E7; [unfold items_of in E7; destruct (unwrap t); try discriminate; inversion A'|].
  clear E5 E6 E7.
  destruct (is_extensible env t) eqn:E5.
  { unfold is_extensible in E5. apply andb_prop in E5 as [U F]. destruct (members_none _ U A) as (x & I & Ax).
    rewrite forallb_forall in F. specialize (F _ I). rewrite (evaluate_none _ Ax) in F. apply none_unwrap in Ax.
    cbv zeta in F. assert (T : unwrap x = YStr \/ is_type_enum env (unwrap x) = true) by (destruct (unwrap x); auto).
    destruct T as [T|T]; [rewrite T in Ax; inversion Ax|].
    unfold is_type_enum in T. destruct (unwrap (unwrap x)) eqn:EX; try discriminate. eapply class_none; eauto. }
  destruct (is_union t) eqn:E6.
  { destruct (members_none _ E6 A) as (x & I & Ax).
    assert (I' : In x (map evaluate (union_members t))) by (apply in_map_iff; exists x; split; auto; now apply evaluate_none).
    cbv zeta in H. destruct (forallb (is_entity env) _) eqn:E7.
    - rewrite forallb_forall in E7. specialize (E7 _ I'). unfold is_entity in E7. destruct (entity_of env x) eqn:E8; [|discriminate].
      eapply class_none; eauto using entity_unwrap.
    - binds H. destruct (all2_in_l _ _ _ _ (map_res_all2 _ _ _ E) I') as (y & _ & R). eapply IH; eauto. }
  destruct (class_of t) as [c|] eqn:E7; [|discriminate]. binds H.
  apply class_qid_module in E as [B K]. destruct t; simpl in E7; try discriminate; injection E7 as <-; simpl in *; try inversion A; congruence.
Qed.

(** ** Nullability *)
Lemma union_none l : admits_none (YUnion l) <-> exists x, In x l /\ admits_none x.
Proof. split; [intros H; inversion H; subst; eauto|intros (x & I & A); econstructor; eauto]. Qed.
Lemma mk_union_none l : admits_none (mk_union l) <-> exists x, In x l /\ admits_none x.
Proof.
  destruct l as [|x [|y r]]; [apply union_none| |apply union_none].
  simpl. split; [intros H; exists x; auto|intros (z & [<- | []] & H); exact H].
Qed.
Lemma mk_ann_none t ms : admits_none (mk_ann t ms) <-> admits_none t.
Proof.
  destruct ms; simpl; [tauto|]. destruct t; try (split; [intros H; inversion H; subst; assumption|intros H; now constructor]).
  split; intros H; inversion H; subst; now constructor.
Qed.
Lemma remove_first_in x l : In x (remove_first l) -> In x l.
Proof. induction l as [|y r IH]; simpl; auto. destruct (is_default_tag y); simpl; tauto. Qed.
Lemma remove_first_keep x l : In x l -> x <> YDefault -> In x (remove_first l).
Proof.
  induction l as [|y r IH]; simpl; auto. intros [<- | I] N.
  - destruct y; simpl; try (left; reflexivity). congruence.
  - destruct (is_default_tag y); simpl; auto.
Qed.
Lemma union_members_none t : admits_none (YUnion (union_members t)) -> admits_none t.
Proof.
  unfold union_members. destruct (unwrap t) eqn:E; intros H; try (inversion H; subst; simpl in *; tauto).
  apply unwrap_none. now rewrite E.
Qed.
Lemma drop_default_none t : admits_none (drop_default t) <-> admits_none t.
Proof.
  unfold drop_default. destruct (is_union t && _)%bool eqn:E; [|tauto]. apply andb_prop in E as [U _]. rewrite mk_union_none. split.
  - intros (x & I & A). apply union_members_none. econstructor; [eapply remove_first_in; eauto|auto].
  - intros A. destruct (members_none _ U A) as (x & I & Ax). exists x. split; auto. apply remove_first_keep; auto. intros ->. inversion Ax.
Qed.
Lemma is_optional_none t : is_optional t = true -> admits_none t.
Proof.
  unfold is_optional. intros H. apply unwrap_none. destruct (unwrap t); try discriminate.
  apply existsb_exists in H as (x & I & N). destruct x; try discriminate. econstructor; eauto. constructor.
Qed.
Lemma field_nullable t s fuel :
  member_sql env o fuel (field_type (field_properties t)) = Ok s -> p_nullable (field_properties t) = true <-> admits_none t.
Proof.
  intros H. apply member_sql_none_free in H. unfold field_properties, field_type in *. simpl in *.
  rewrite mk_ann_none in H. split.
  - intros N. apply is_optional_none in N. apply (proj1 (drop_default_none _)) in N. apply unwrap_none. exact N.
  - intros A. destruct (is_optional _) eqn:E; [reflexivity|]. exfalso. apply H.
    apply none_unwrap. apply (proj2 (drop_default_none _)). now apply none_unwrap.
Qed.

(** ** Collections *)
Lemma primary_key_type f : is_primary_key_type (f_type f) = true <-> key_field f.
Proof.
  unfold is_primary_key_type, key_field. split.
  - intros H. apply existsb_exists in H as (m & I & E). apply meta_eqb_eq in E. subst m. destruct (f_type f); simpl in I; try tauto. eauto.
  - intros (t & ms & -> & I). apply existsb_exists. exists MPrimary. split; [exact I|]. now apply meta_eqb_eq.
Qed.
Lemma is_entity_spec t : is_entity env t = true <-> exists c, annotated t (YCls c) /\ entity env c.
Proof.
  unfold is_entity, entity_of, dataclass_of. split.
  - destruct (unwrap t) eqn:E; try discriminate. destruct (env c) eqn:EC; try discriminate.
    destruct (has_key env c) eqn:K; [|discriminate]. intros _. exists c. split.
    + destruct t; simpl in E; subst; try (now left); try discriminate. right. eauto.
    + unfold has_key, fields_of in K. rewrite EC in K. apply existsb_exists in K as (f & I & P). apply primary_key_type in P.
      unfold entity. eauto 10.
  - intros (c & N & (fs & a & d & ps & EC & f & I & K)).
    assert (E : unwrap t = YCls c) by (destruct N as [-> | (ms & ->)]; reflexivity).
    rewrite E, EC. unfold has_key, fields_of. rewrite EC.
    assert (X : existsb (fun f => is_primary_key_type (f_type f)) fs = true) by (apply existsb_exists; exists f; split; auto; now apply primary_key_type).
    now rewrite X.
Qed.
Lemma unwrap_mk_ann t ms : (forall u ns, t <> YAnn u ns) \/ True -> unwrap (mk_ann t ms) = unwrap t.
Proof. intros _. destruct ms; simpl; [reflexivity|]. destruct t; reflexivity. Qed.
Lemma filter_non_none x l : NoDup l -> In YNone l -> filter (fun y => negb (is_none y)) l = [x] -> Permutation l [x; YNone].
Proof.
  intros ND I F. apply NoDup_Permutation; auto.
  - assert (X : In x (filter (fun y => negb (is_none y)) l)) by (rewrite F; simpl; auto). apply filter_In in X as [_ X].
    constructor; [simpl; intros [<- | []]; discriminate|]. constructor; [simpl; tauto|constructor].
  - intros y. simpl. split.
    + intros Iy. destruct (is_none y) eqn:E; [right; left; destruct y; try discriminate; reflexivity|].
      assert (X : In y (filter (fun y => negb (is_none y)) l)) by (apply filter_In; rewrite E; auto). rewrite F in X. simpl in X. tauto.
    + intros [<- | [<- | []]]; [|exact I].
      assert (X : In x (filter (fun y => negb (is_none y)) l)) by (rewrite F; simpl; auto). now apply filter_In in X.
Qed.
Definition relations : bool := match o_array o with AmRelation => true | _ => false end.
Lemma annotated_unwrap t : annotated t (unwrap t).
Proof. destruct t; simpl; try (now left). right. eauto. Qed.
Lemma relationship_sound t b e : py_wf t -> relationship env o t = Some (b, e) -> joined env relations t.
Proof.
  intros W H. unfold relationship in H. fold relations in H.
  assert (C : exists u, unwrap (if is_optional t then unwrap_optional t else t) = u /\ (u = YList e \/ u = YSet e) /\ (relations || is_entity env e = true)%bool).
  { destruct (unwrap _) eqn:E; try discriminate; match type of H with (if ?b then _ else _) = _ => destruct b eqn:R end; try discriminate; injection H as <- <-; eauto. }
  destruct C as (u & EU & LS & R). exists e. split.
  - destruct (is_optional t) eqn:OP.
    + unfold is_optional in OP. unfold unwrap_optional in EU. destruct (unwrap t) eqn:ET; try discriminate.
      rewrite unwrap_mk_ann in EU by auto.
      destruct (filter (fun x => negb (is_none x)) l) as [|x [|y r]] eqn:F; simpl in EU; subst u.
      * destruct LS; discriminate.
      * exists (YUnion l), x, (unwrap x). split; [rewrite <- ET; apply annotated_unwrap|]. split.
        { right. exists l. split; auto. apply filter_non_none; auto.
          - assert (WU : py_wf (YUnion l)).
            { destruct t; simpl in ET; try discriminate; [subst; inversion W; subst; auto; contradiction | injection ET as <-; exact W]. }
            inversion WU; subst; auto; contradiction.
          - apply existsb_exists in OP as (z & I & N). destruct z; try discriminate. exact I. }
        split; [apply annotated_unwrap|exact LS].
      * destruct LS; discriminate.
    + exists (unwrap t), (unwrap t), (unwrap t). split; [apply annotated_unwrap|]. split; [now left|]. split; [now left|]. now rewrite EU.
  - apply Bool.orb_true_iff in R as [R|R]; [now left|]. right. now apply is_entity_spec.
Qed.
Lemma relationship_complete t : py_wf t -> joined env relations t -> is_some (relationship env o t) = true.
Proof.
  intros W (e & (a & b & c & A1 & A2 & A3 & LS) & R).
  assert (NA : forall u ns, c <> YAnn u ns) by (intros u ns ->; destruct LS; discriminate).
  assert (U : unwrap (if is_optional t then unwrap_optional t else t) = c).
  { assert (UB : unwrap b = c).
    { destruct A3 as [-> | (ms & ->)]; [|reflexivity]. destruct c; try reflexivity. exfalso; eapply NA; reflexivity. }
    destruct A2 as [-> | (l & -> & Pm)].
    - assert (T : unwrap t = c).
      { destruct A1 as [-> | (ms & ->)]; [exact UB|]. simpl. destruct A3 as [-> | (ns & ->)]; [reflexivity|].
        inversion W; subst; [contradiction|]. exfalso. match goal with X : forall u ns, _ <> _ |- _ => eapply X; reflexivity end. }
      assert (OP : is_optional t = false) by (unfold is_optional; rewrite T; destruct LS as [-> | ->]; reflexivity).
      now rewrite OP.
    - assert (T : unwrap t = YUnion l) by (destruct A1 as [-> | (ms & ->)]; reflexivity).
      assert (WU : py_wf (YUnion l)).
      { destruct A1 as [-> | (ms & ->)]; [exact W|]. inversion W; subst; [contradiction|assumption]. }
      assert (ND : NoDup l) by (inversion WU; subst; auto; contradiction).
      assert (BN : b <> YNone).
      { intros ->. apply Permutation_NoDup with (l' := [YNone; YNone]) in ND; auto. inversion ND; subst. simpl in *. tauto. }
      assert (OP : is_optional t = true).
      { unfold is_optional. rewrite T. apply existsb_exists. exists YNone. split; auto. eapply Permutation_in; [apply Permutation_sym; eauto|simpl; auto]. }
      rewrite OP. unfold unwrap_optional. rewrite T, unwrap_mk_ann by auto.
      assert (F : filter (fun x => negb (is_none x)) l = [b]).
      { assert (NB : is_none b = false) by (destruct b; try reflexivity; congruence).
        apply Permutation_sym, Permutation_length_2_inv in Pm as [-> | ->]; simpl; now rewrite NB. }
      rewrite F. simpl. exact UB. }
  assert (RB : (relations || is_entity env e)%bool = true).
  { destruct R as [-> | R]; [reflexivity|]. rewrite (proj2 (is_entity_spec e) R). apply Bool.orb_true_r. }
  unfold relationship. fold relations. rewrite U. destruct LS as [-> | ->]; rewrite RB; reflexivity.
Qed.

(** ** Columns *)
Lemma metadata_tagged m t : In m (metadata t) -> tagged m t.
Proof. destruct t; simpl; try tauto. intros H. now constructor. Qed.
Lemma unwrap_tagged m t : tagged m (unwrap t) -> tagged m t.
Proof. destruct t; simpl; auto. intros H. now constructor 2. Qed.
Lemma members_tagged m t x : In x (union_members t) -> tagged m x -> tagged m t.
Proof. unfold union_members. destruct (unwrap t) eqn:E; simpl; try tauto. intros I T. apply unwrap_tagged. rewrite E. econstructor 3; eauto. Qed.
Lemma union_tagged m l : tagged m (YUnion l) -> exists x, In x l /\ tagged m x.
Proof. intros H. inversion H; subst; eauto. Qed.
Lemma mk_union_tagged m l : tagged m (mk_union l) -> exists x, In x l /\ tagged m x.
Proof. destruct l as [|x [|y r]]; [apply union_tagged| |apply union_tagged]. simpl. eauto. Qed.
Lemma drop_default_tagged m t : tagged m (drop_default t) -> tagged m t.
Proof.
  unfold drop_default. destruct (_ && _)%bool; auto. intros H. apply mk_union_tagged in H as (x & I & T).
  eapply members_tagged; eauto. now apply remove_first_in.
Qed.
Lemma mk_ann_metadata t ms m : In m (metadata (mk_ann t ms)) -> In m (metadata t) \/ In m ms.
Proof. destruct ms as [|k r]; simpl; [tauto|]. destruct t; simpl; try tauto. intros H. apply in_app_iff in H. simpl in H. tauto. Qed.
Lemma unwrap_optional_tagged m t : In m (metadata (unwrap_optional t)) -> tagged m t.
Proof.
  unfold unwrap_optional. destruct (unwrap t) eqn:E; intros H; try (now apply metadata_tagged).
  apply mk_ann_metadata in H as [H|H]; [|now apply metadata_tagged].
  apply metadata_tagged in H. apply mk_union_tagged in H as (x & I & T). apply filter_In in I as [I _].
  apply unwrap_tagged. rewrite E. econstructor 3; eauto.
Qed.
Lemma identity_top t ms u : t = YAnn u ms -> In MIdentity ms -> p_identity (field_properties t) = true.
Proof.
  intros -> I. unfold field_properties. simpl. apply existsb_exists. exists MIdentity. split; [apply in_app_iff; now left|now apply meta_eqb_eq].
Qed.
Lemma identity_tagged t : p_identity (field_properties t) = true -> tagged MIdentity t.
Proof.
  unfold field_properties. simpl. intros H. apply existsb_exists in H as (m & I & E). apply meta_eqb_eq in E. subst m.
  apply in_app_iff in I as [I|I]; [now apply metadata_tagged|]. apply unwrap_tagged, drop_default_tagged.
  destruct (is_optional _); [now apply unwrap_optional_tagged|now apply metadata_tagged].
Qed.
Lemma member_column_matches fuel ps f c : member_column env o fuel ps f = Ok c -> column_matches ps (o_auto o) f c.
Proof.
  unfold member_column. intros H. binds H. binds H. injection H as <-. unfold column_matches. simpl.
  split; [unfold described; destruct (find _ ps) as [[n s]|] eqn:F;
    [apply find_some in F as [I Q]; apply String.eqb_eq in Q; simpl in Q; now subst
    |intros I; apply in_map_iff in I as ([n s] & Q & I); apply (find_none _ _ F) in I; simpl in *; subst; rewrite String.eqb_refl in I; discriminate]|].
  split; [reflexivity|]. split; [eapply field_nullable; eauto|]. split.
  - destruct (f_default f) eqn:D; simpl in *.
    + intros A. rewrite A in E0. simpl in E0. congruence.
    + intros A. rewrite A in E0. simpl in E0. congruence.
    + binds E0. injection E0 as <-. eauto.
    + congruence.
  - split; [intros t ms ET I; eapply identity_top; eauto|].
    intros N. destruct (p_identity (field_properties (f_type f))) eqn:P; [|exact P]. exfalso. now apply N, identity_tagged.
Qed.

(** defaults that are made up *)
Lemma zero_unwrap t s : zero env (unwrap t) s -> zero env t s.
Proof. destruct t; simpl; auto. intros H. now constructor. Qed.
Lemma zero_mk_ann t ms s : zero env (mk_ann t ms) s -> zero env t s.
Proof. destruct ms; simpl; [auto|]. destruct t; intros H; inversion H; subst; try assumption. now constructor. Qed.
Lemma zero_mk_union l s : zero env (mk_union l) s -> exists x, In x l /\ zero env x s.
Proof. destruct l as [|x [|y r]]; intros H; [inversion H; subst; eauto|exists x; split; [now left|exact H]|inversion H; subst; eauto]. Qed.
Lemma zero_members t x s : In x (union_members t) -> zero env x s -> zero env t s.
Proof. unfold union_members. destruct (unwrap t) eqn:E; simpl; try tauto. intros I T. apply zero_unwrap. rewrite E. econstructor; eauto. Qed.
Lemma zero_drop_default t s : zero env (drop_default t) s -> zero env t s.
Proof. unfold drop_default. destruct (_ && _)%bool; auto. intros H. apply zero_mk_union in H as (x & I & Z). eapply zero_members; eauto. now apply remove_first_in. Qed.
Lemma zero_optional t s : zero env (unwrap_optional t) s -> zero env t s.
Proof.
  unfold unwrap_optional. destruct (unwrap t) eqn:E; auto. intros H. apply zero_mk_ann, zero_mk_union in H as (x & I & Z). apply filter_In in I as [I _].
  apply zero_unwrap. rewrite E. econstructor; eauto.
Qed.
Lemma zero_plain t s : zero env (p_plain (field_properties t)) s -> zero env t s.
Proof.
  unfold field_properties. simpl. intros H. apply zero_unwrap, zero_drop_default. apply zero_unwrap in H.
  destruct (is_optional _); [now apply zero_optional|exact H].
Qed.
Lemma primary_tagged t : p_primary (field_properties t) = true -> tagged MPrimary t.
Proof.
  unfold field_properties. simpl. intros H. apply existsb_exists in H as (m & I & E). apply meta_eqb_eq in E. subst m.
  apply in_app_iff in I as [I|I]; [now apply metadata_tagged|]. apply unwrap_tagged, drop_default_tagged.
  destruct (is_optional _); [now apply unwrap_optional_tagged|now apply metadata_tagged].
Qed.
Lemma zero_text u s : auto_text env u = Ok s -> zero env u s.
Proof.
  intros H. assert (D : u = YDatetime \/ u <> YDatetime) by (destruct u; (now left) || (right; discriminate)).
  destruct D as [-> | D]; [simpl in H; injection H as <-; constructor|].
  assert (X : match unwrap u with
      | YCls c => match env c with KEnum (e :: _) => constant (ev_value e) | KEnum [] => Err "StopIteration" | _ => Err "TypeError" end
      | YInt => Ok "0" | YStr => Ok "''" | YBool => Ok "FALSE" | YFloat => Ok "0.0" | YDecimal => Ok "0"
      | YTimedelta => Err "NotImplementedError" | _ => Err "TypeError" end = Ok s) by (destruct u; simpl in *; congruence || discriminate || exact H).
  apply zero_unwrap. clear H D. destruct (unwrap u); try discriminate; try (injection X as <-; constructor).
  destruct (env c) as [| [|e es] |] eqn:E; try discriminate. econstructor; eauto.
Qed.
Lemma zero_key t c k s : entity_of env t = Some c -> key_type_of env c = Ok k -> zero env k s -> zero env t s.
Proof.
  intros E K Z. apply zero_unwrap. apply entity_dataclass in E as [E _]. rewrite (dataclass_unwrap _ _ E).
  unfold key_type_of in K. destruct (find _ _) as [f|] eqn:F; [|discriminate]. injection K as <-. apply find_some in F as [I P].
  unfold field_type in Z. apply zero_mk_ann, zero_plain in Z. apply primary_tagged in P.
  unfold fields_of in I. destruct (env c) eqn:EC; try contradiction. eapply z_key; eauto.
Qed.
Lemma zero_evaluate t s : zero env (evaluate t) s -> zero env t s.
Proof. destruct t; simpl; auto. now constructor. Qed.
Lemma zero_auto t u s : auto_type env t = Ok (Some u) -> auto_text env u = Ok s -> zero env t s.
Proof.
  unfold auto_type. intros H T. apply zero_text in T. destruct (entity_of env t) as [c|] eqn:E.
  - binds H. injection H as <-. eapply zero_key; eauto.
  - destruct (is_union t) eqn:U.
    + cbv zeta in H. destruct (forallb _ _).
      * destruct (map evaluate (union_members t)) as [|m r] eqn:M; [discriminate|].
        assert (I : In m (map evaluate (union_members t))) by (rewrite M; simpl; auto). apply in_map_iff in I as (x & <- & I).
        destruct (entity_of env (evaluate x)) as [c|] eqn:EX; [|discriminate]. binds H. injection H as <-.
        eapply zero_members; eauto. apply zero_evaluate. eapply zero_key; eauto.
      * injection H as H. apply find_some in H as [I _]. apply in_map_iff in I as (x & <- & I). eapply zero_members; eauto. now apply zero_evaluate.
    + destruct (_ || _)%bool; [discriminate|]. injection H as <-. exact T.
Qed.
Lemma member_column_zero fuel ps f c s : member_column env o fuel ps f = Ok c -> (f_default f = DMissing \/ f_default f = DNone) ->
  c_default c = Some s -> zero env (f_type f) s.
Proof.
  unfold member_column. intros H D N. binds H. binds H. injection H as <-. simpl in N. subst.
  assert (X : (if o_auto o && negb (p_nullable (field_properties (f_type f))) && negb (p_primary (field_properties (f_type f))) && negb (p_identity (field_properties (f_type f)))
      then do u <- auto_type env (p_plain (field_properties (f_type f)));
           match u with Some u => do s <- auto_text env u; Ok (Some s) | None => Ok None end else Ok None) = Ok (Some s))
    by (destruct D as [D|D]; rewrite D in E0; exact E0).
  destruct (_ && _)%bool; [|discriminate]. binds X. destruct v0 as [u|]; [|discriminate]. binds X. injection X as ->.
  apply zero_plain. eapply zero_auto; eauto.
Qed.

Lemma columns_match_fields fuel ps fs : Forall (fun f => py_wf (f_type f)) fs -> forall cs,
  map_res (member_column env o fuel ps) (filter (fun f => negb (is_some (relationship env o (f_type f)))) fs) = Ok cs ->
  columns_match env ps relations (o_auto o) fs cs.
Proof.
  induction 1 as [|f fs W _ IH]; intros cs H; simpl in *; [injection H as <-; constructor|].
  destruct (relationship env o (f_type f)) as [[b e]|] eqn:R; simpl in H.
  - apply cm_join; [eapply relationship_sound; eauto|auto].
  - binds H. binds H. injection H as <-. apply cm_col.
    + intros J. apply relationship_complete in J; auto. rewrite R in J. discriminate.
    + eapply member_column_matches; eauto.
    + auto.
Qed.
Lemma member_column_name fuel ps f c : member_column env o fuel ps f = Ok c -> c_name c = f_name f.
Proof. intros H. now apply member_column_matches in H as (_ & H & _). Qed.
Lemma columns_names fuel ps fs cs : map_res (member_column env o fuel ps) fs = Ok cs -> map c_name cs = map f_name fs.
Proof.
  intros H. apply map_res_all2 in H. induction H; simpl; [reflexivity|]. f_equal; auto. eapply member_column_name; eauto.
Qed.
Lemma nodup_filter_names (p : dfield -> bool) fs : NoDup (map f_name fs) -> NoDup (map f_name (filter p fs)).
Proof.
  induction fs as [|f fs IH]; simpl; intros H; [constructor|]. inversion H; subst. destruct (p f); simpl; auto.
  constructor; auto. intros I. apply H2. apply in_map_iff in I as (g & E & I). apply filter_In in I as [I _]. rewrite <- E. now apply in_map.
Qed.
Lemma key_name_first c n : key_name_of env c = Ok n -> first_key (data_fields env c) n.
Proof.
  unfold key_name_of. destruct (find _ _) eqn:E; [|discriminate]. intros [= <-].
  change (fields_of env c) with (data_fields env c) in E. revert E. generalize (data_fields env c). intros fs.
  induction fs as [|g fs IH]; simpl; [discriminate|]. destruct (is_primary_key_type (f_type g)) eqn:P.
  - intros [= ->]. exists [], d, fs. split; [reflexivity|]. split; [now apply primary_key_type|]. split; [reflexivity|]. simpl. tauto.
  - intros H. destruct (IH H) as (a & f & b & -> & K & N & F). exists (g :: a), f, b. split; [reflexivity|]. split; auto. split; auto.
    intros x [<- | I] Kx; [|eapply F; eauto]. apply primary_key_type in Kx. congruence.
Qed.
Lemma key_name_none c e : key_name_of env c = Err e -> forall f, In f (data_fields env c) -> ~ key_field f.
Proof.
  unfold key_name_of. destruct (find _ _) eqn:E; [discriminate|]. intros _ f I K.
  apply (find_none _ _ E) in I. apply primary_key_type in K. congruence.
Qed.

Lemma table_inv fuel c t : dataclass_to_table env o fuel c = Ok t ->
  exists cols ks q k, table_columns env o fuel c = Ok cols /\ table_keys env o c cols = Ok ks /\ class_qid o c = Ok q /\
    key_name_of env c = Ok k /\ t = make_table q cols [k] ks (doc_of env c) None.
Proof.
  unfold dataclass_to_table. destruct (env c) eqn:E; try discriminate. intros H. binds H. binds H. binds H. binds H.
  injection H as <-. exists v, v0, v1, v2. auto.
Qed.
Lemma table_columns_ok fuel c cols : NoDup (map f_name (data_fields env c)) -> table_columns env o fuel c = Ok cols ->
  od_make c_name cols = cols.
Proof.
  intros ND H. apply make_id. change (NoDup (map c_name cols)). unfold table_columns in H.
  rewrite (columns_names _ _ _ _ H). apply nodup_filter_names. exact ND.
Qed.
End Conv.
