(** Proofs about creatable catalogs, part 1: tables. *)
From Verif Require Import PyStr QuoteModel ObjectDict ObjectDictProofs Types Objects Ddl Compat Convert ConvertSpec ConvertProofs CloseSpec
  CloseProofs1 CloseProofs2 CloseProofs3 CloseProofs4 CloseProofs5 CloseProofs6 CreateSpec.
From Coq Require Import List Permutation Lia.
Open Scope string_scope.

(** the columns that a constraint is about *)
Definition owned (k : constr) : list string :=
  match k with CUnique _ cs => cs | CForeign _ cs _ _ => cs | CDiscr _ cs _ => cs | CCheck _ _ => [] end.
Record sound_table (t : table) : Prop := {
  st_cols : NoDup (map c_name (t_columns t));
  st_ident : forall c, In c (t_columns t) -> c_identity c = true -> c_nullable c = false /\ c_default c = None;
  st_pk : forall n, In n (t_pk t) -> In n (map c_name (t_columns t));
  st_pk_null : forall c, In c (t_columns t) -> In (c_name c) (t_pk t) -> c_nullable c = false;
  st_cons : NoDup (map k_name (t_constraints t));
  st_own : forall k n, In k (t_constraints t) -> In n (owned k) -> In n (map c_name (t_columns t));
  st_df : forall k n, In k (t_constraints t) -> k_name k <> df_name n }.

Lemma made_nodup {A} (key : A -> string) l : NoDup (map key (od_make key l)).
Proof. apply make_wf. Qed.
Lemma made_names {A} (key : A -> string) l n : In n (map key l) -> In n (map key (od_make key l)).
Proof. intros I. apply in_map_iff in I as (x & <- & I). destruct (make_key key l x I) as (y & Iy & _ & K). rewrite <- K. now apply in_map. Qed.

Section Create1.
Context (env : cid -> classdef) (o : copts) (refs : list cid) (fuel : nat).
Hypothesis HO : ordinary env o refs.
Hypothesis HC : complete env refs.
Hypothesis HR : creatable env o refs.

Lemma identity_tagged t : p_identity (field_properties t) = true -> tagged MIdentity t.
Proof.
  unfold field_properties. simpl. intros H. apply existsb_exists in H as (m & I & E). apply meta_eqb_eq in E. subst m.
  apply in_app_iff in I as [I|I]; [now apply (metadata_tagged env)|].
  apply unwrap_tagged, (drop_default_tagged env). destruct (is_optional _); [apply (unwrap_optional_tagged env _ _ I)|now apply (metadata_tagged env)].
Qed.
Lemma unique_tagged t : p_unique (field_properties t) = true -> tagged MUnique t.
Proof.
  unfold field_properties. simpl. intros H. apply existsb_exists in H as (m & I & E). apply meta_eqb_eq in E. subst m.
  apply in_app_iff in I as [I|I]; [now apply (metadata_tagged env)|].
  apply unwrap_tagged, (drop_default_tagged env). destruct (is_optional _); [apply (unwrap_optional_tagged env _ _ I)|now apply (metadata_tagged env)].
Qed.
Lemma nullable_none t : p_nullable (field_properties t) = true -> admits_none t.
Proof.
  unfold field_properties. simpl. intros N. apply is_optional_none in N. apply (proj1 (drop_default_none env _)) in N. now apply unwrap_none.
Qed.
Lemma column_inv ps f c : member_column env o fuel ps f = Ok c ->
  c_nullable c = p_nullable (field_properties (f_type f)) /\ c_identity c = p_identity (field_properties (f_type f)) /\
  (p_identity (field_properties (f_type f)) = true -> f_default f = DMissing \/ f_default f = DNone -> c_default c = None).
Proof.
  intros H. unfold member_column in H. binds H. binds H. set (p := field_properties (f_type f)) in *. clearbody p.
  injection H as <-. cbn [c_identity c_nullable c_default]. split; [reflexivity|]. split; [reflexivity|]. intros I D.
  rewrite I in E0. cbn [negb] in E0. rewrite Bool.andb_false_r in E0. destruct D as [D|D]; rewrite D in E0; now injection E0 as <-.
Qed.
Lemma column_sound ps f c : relevant env refs f -> member_column env o fuel ps f = Ok c -> c_identity c = true -> c_nullable c = false /\ c_default c = None.
Proof.
  intros R H I. apply column_inv in H as (H1 & H2 & H3). rewrite H2 in I.
  destruct (cr_identity _ _ _ HR f R (identity_tagged _ I)) as [N D]. split; [|auto].
  rewrite H1. apply Bool.not_true_is_false. intros P. apply N. now apply nullable_none.
Qed.
Lemma joined_none f : relevant env refs f -> ~ joined env (as_relation o) (f_type f) -> relationship env o (f_type f) = None.
Proof.
  intros R N. destruct (relationship env o (f_type f)) as [[b e]|] eqn:E; [|reflexivity]. exfalso. apply N.
  apply (relationship_sound env o _ _ _ (cr_types _ _ _ HR f R) E).
Qed.
Lemma related_joined f b e : relevant env refs f -> relationship env o (f_type f) = Some (b, e) -> joined env (as_relation o) (f_type f).
Proof. intros R E. apply (relationship_sound env o _ _ _ (cr_types _ _ _ HR f R) E). Qed.

Lemma key_df (tag : string) c f n : (tag = "uq" \/ tag = "fk" \/ tag = "dk" \/ tag = "ch") -> key_name o tag c f = Ok n -> forall m, n <> df_name m.
Proof.
  intros T H m E. unfold key_name in H. binds H. injection H as <-. unfold df_name in E.
  destruct T as [-> | [-> | [-> | ->]]]; simpl in E; discriminate.
Qed.

Section Class.
  Context (c : cid) (t : table).
  Hypothesis Hc : In c refs.
  Hypothesis Ht : dataclass_to_table env o fuel c = Ok t.

  Lemma class_rel f : In f (data_fields env c) -> relevant env refs f.
  Proof. intros If. econstructor; eauto. Qed.
  Lemma class_constraint k : In k (t_constraints t) -> (forall n, In n (owned k) -> In n (map c_name (t_columns t))) /\ forall n, k_name k <> df_name n.
  Proof.
    intros Ik. pose proof Ht as T. apply table_inv in T as (cs & ks & tq & tk & H1 & H2 & H3 & H4 & HT).
    assert (J : In k ks) by (rewrite HT in Ik; simpl in Ik; now apply make_in in Ik).
    assert (COL : forall f, In f (data_fields env c) -> relationship env o (f_type f) = None -> In (f_name f) (map c_name (t_columns t))).
    { intros f If R. destruct (class_column _ _ _ HO _ _ _ _ Hc Ht If R) as (s & _ & (col & Il & Nc & _)). rewrite <- Nc. now apply in_map. }
    assert (ONE : forall f, In f (data_fields env c) -> relationship env o (f_type f) = None -> forall n, In n [f_name f] -> In n (map c_name (t_columns t))).
    { intros f If R n [<-|[]]. now apply COL. }
    unfold table_keys in H2. binds H2. binds H2. binds H2. binds H2. binds H2. injection H2 as <-.
    repeat (apply in_app_iff in J as [J|J]).
    - destruct (o_foreign o) eqn:OF; [|injection E as <-; destruct J]. unfold class_constraints in E. binds E. binds E. injection E as <-.
      apply in_app_iff in J as [J|J].
      + unfold unique_constraints in E4. binds E4. injection E4 as <-. destruct (in_concat_ok _ _ _ _ E J) as (f & r & If & Ef & Ir).
        destruct (p_unique _) eqn:PU; [|injection Ef as <-; destruct Ir]. binds Ef. injection Ef as <-. destruct Ir as [<-|[]].
        split; [|cbn [k_name]; eapply key_df; [|eassumption]; auto]. cbn [owned]. apply ONE; [exact If|].
        assert (RL : relevant env refs f) by now apply class_rel. apply joined_none; [exact RL|]. intros JJ. exact (cr_unique _ _ _ HR c f Hc If JJ (unique_tagged _ PU)).
      + rewrite OF in E5. binds E5. injection E5 as <-. destruct (in_concat_ok _ _ _ _ E J) as (f & r & If & Ef & Ir).
        unfold field_reference in Ef. binds Ef. binds Ef. injection Ef as <-. apply in_app_iff in Ir as [Ir|Ir].
        * destruct (entity_of env (required_type f)) as [r|] eqn:En; [|injection E5 as <-; destruct Ir].
          binds E5. binds E5. injection E5 as <-. destruct Ir as [<-|[]]. pose proof (entity_unwrap _ _ _ En) as U.
          split; [|cbn [k_name]; eapply key_df; [|eassumption]; auto]. cbn [owned]. apply ONE; [exact If|]. eapply not_relationship; [exact U|]. intros x; split; discriminate.
        * destruct (is_union (required_type f)) eqn:Un; [|injection E6 as <-; destruct Ir].
          destruct (forallb (is_entity env) (map evaluate (union_members (required_type f)))) eqn:Fa; [|injection E6 as <-; destruct Ir].
          binds E6. binds E6. injection E6 as <-. destruct Ir as [<-|[]]. destruct (union_inv _ Un) as (l & U & _).
          split; [|cbn [k_name]; eapply key_df; [|eassumption]; auto]. cbn [owned]. apply ONE; [exact If|]. eapply not_relationship; [exact U|]. intros x; split; discriminate.
    - unfold extensible_constraints in E0. apply map_res_all2 in E0. destruct (all2_in_r _ _ _ _ E0 J) as (f & If & Ef).
      apply filter_In in If as [If Xf]. binds Ef. unfold enum_reference in Ef. binds Ef. binds Ef. injection Ef as <-.
      pose proof Xf as U. unfold is_extensible in U. apply andb_prop in U as [U _]. destruct (union_inv _ U) as (l & U' & _).
      split; [|cbn [k_name]; eapply key_df; [|eassumption]; auto]. cbn [owned]. apply ONE; [exact If|]. eapply not_relationship; [exact U'|]. intros x; split; discriminate.
    - destruct (o_enum o) eqn:OE; try (injection E1 as <-; destruct J). unfold enum_constraints in E1. apply map_res_all2 in E1.
      destruct (all2_in_r _ _ _ _ E1 J) as (f & If & Ef). unfold enum_fields in If. apply filter_In in If as [If Xf].
      binds Ef. unfold enum_reference in Ef. binds Ef. binds Ef. injection Ef as <-.
      destruct (is_type_enum_inv env _ Xf) as (e & Ue & Ee).
      split; [|cbn [k_name]; eapply key_df; [|eassumption]; auto]. cbn [owned]. apply ONE; [exact If|]. eapply not_relationship; [exact Ue|]. intros x; split; discriminate.
    - destruct (o_enum o); try (injection E2 as <-; destruct J). destruct (o_check o); [|injection E2 as <-; destruct J].
      unfold enum_checks in E2. apply map_res_all2 in E2. destruct (all2_in_r _ _ _ _ E2 J) as (f & If & Ef).
      binds Ef. binds Ef. injection Ef as <-. split; [intros n []|cbn [k_name]; eapply key_df; [|eassumption]; auto].
    - unfold column_checks in E3. binds E3. injection E3 as <-. destruct (in_concat_ok _ _ _ _ E4 J) as (f & r & If & Ef & Ir).
      destruct (check_condition f); [|injection Ef as <-; destruct Ir]. binds Ef. injection Ef as <-. destruct Ir as [<-|[]].
      split; [intros n []|cbn [k_name]; eapply key_df; [|eassumption]; auto].
  Qed.
  Lemma class_sound : sound_table t.
  Proof.
    pose proof Ht as T. apply table_inv in T as (cs & ks & tq & tk & H1 & H2 & H3 & H4 & HT).
    assert (KF : exists f, In f (data_fields env c) /\ key_field f /\ f_name f = tk).
    { unfold key_name_of in H4. destruct (find _ (fields_of env c)) as [f|] eqn:F; [|discriminate]. injection H4 as <-. apply find_some in F as [If P].
      exists f. split; [exact If|]. split; [|reflexivity]. now apply primary_key_type. }
    destruct KF as (kf & Ikf & KF & NK). destruct (cr_keys _ _ _ HR c kf Hc Ikf KF) as (NN & NJ & _ & _).
    constructor.
    - rewrite HT. apply made_nodup.
    - intros k Ik. rewrite HT in Ik. cbn [t_columns make_table] in Ik. apply make_in in Ik. unfold table_columns in H1. apply map_res_all2 in H1.
      destruct (all2_in_r _ _ _ _ H1 Ik) as (f & If & Ef). unfold column_fields in If. apply filter_In in If as [If _].
      eapply column_sound; eauto. now apply class_rel.
    - intros n I. rewrite HT in I. cbn [t_pk make_table] in I. destruct I as [<-|[]].
      assert (R : relationship env o (f_type kf) = None) by (apply joined_none; [now apply class_rel|exact NJ]).
      destruct (class_column _ _ _ HO _ _ _ _ Hc Ht Ikf R) as (s & _ & (col & Il & Nc & _)). rewrite <- NK, <- Nc. now apply in_map.
    - intros k Ik Ip. rewrite HT in Ik, Ip. cbn [t_pk make_table] in Ip. destruct Ip as [Ip|[]].
      cbn [t_columns make_table] in Ik. apply make_in in Ik. unfold table_columns in H1. apply map_res_all2 in H1.
      destruct (all2_in_r _ _ _ _ H1 Ik) as (f & If & Ef). unfold column_fields in If. apply filter_In in If as [If _].
      pose proof (column_name_type env o _ _ _ _ Ef) as [Nf _].
      assert (f = kf).
      { destruct (ord_fields _ _ _ HO c Hc) as [ND _]. assert (EN : f_name f = f_name kf) by congruence. clear - ND If Ikf EN. fold (fields_of env c) in *.
        change (fields_of env c) with (data_fields env c) in If.
        induction (data_fields env c) as [|x l IH]; [destruct If|]. simpl in ND. inversion ND as [|? ? N1 N2]; subst.
        destruct If as [->|If], Ikf as [->|Ikf]; auto; exfalso; apply N1; [rewrite EN|rewrite <- EN]; now apply in_map. }
      subst f. apply column_inv in Ef as [-> _]. apply Bool.not_true_is_false. intros P. apply NN. now apply nullable_none.
    - rewrite HT. apply made_nodup.
    - intros k n Ik. now apply class_constraint.
    - intros k n Ik. now apply class_constraint.
  Qed.
End Class.

Lemma enum_sound e t : In e refs -> enum_table env o fuel e = Ok t -> sound_table t.
Proof.
  intros Ie H. unfold enum_table in H. binds H. binds H. destruct (env e) as [|vs|] eqn:K; try discriminate. binds H. binds H. injection H as <-.
  assert (P : forall c, In c (fst v2) -> c_name c <> "id" /\ (c_identity c = true -> c_nullable c = false /\ c_default c = None)).
  { intros c Ic. destruct v1; try discriminate.
    - binds E2. injection E2 as <-. destruct Ic as [<-|[]]. split; discriminate.
    - binds E2. injection E2 as <-. destruct Ic as [<-|[]]. split; discriminate.
    - destruct (env c0) as [fs a d ps| |] eqn:KC; try discriminate. binds E2. injection E2 as <-. cbn [fst] in Ic.
      apply map_res_all2 in E3. destruct (all2_in_r _ _ _ _ E3 Ic) as (f & If & Ef).
      unfold enum_value_type in E1. destruct (nodup vtype_eq_dec (map ev_type vs)) as [|x [|y l]] eqn:NV; try discriminate.
      injection E1 as ->. assert (J : In (VtCls c0) (map ev_type vs)) by (apply (nodup_In vtype_eq_dec); rewrite NV; now left).
      apply in_map_iff in J as (w & W & Iw). destruct w; simpl in W; try discriminate. injection W as ->.
      split; [|eapply column_sound; [|exact Ef]; eapply rl_value; eauto].
      apply column_name_type in Ef as [-> _]. intros F. eapply (ord_values _ _ _ HO e vs c0); eauto. rewrite <- F. now apply in_map. }
  assert (Q : forall k, In k (snd v2) -> (forall n, In n (owned k) -> In n (map c_name (fst v2))) /\ forall n, k_name k <> df_name n).
  { intros k Ik. destruct v1; try discriminate.
    - binds E2. injection E2 as <-. destruct Ik as [<-|[]]. split; [simpl; auto|discriminate].
    - binds E2. injection E2 as <-. destruct Ik as [<-|[]]. split; [simpl; auto|discriminate].
    - destruct (env c) as [fs a d ps| |] eqn:KC; try discriminate. binds E2. injection E2 as <-. destruct Ik. }
  unfold make_table. constructor; cbn [t_columns t_pk t_constraints].
  - apply made_nodup.
  - intros c Ic. apply make_in in Ic. destruct Ic as [<-|Ic]; [auto|]. now apply P.
  - intros n [<-|[]]. apply made_names. now left.
  - intros c Ic [N|[]]. apply make_in in Ic. destruct Ic as [<-|Ic]; [reflexivity|]. exfalso. apply (proj1 (P c Ic)). now symmetry.
  - apply made_nodup.
  - intros k n Ik In_. apply make_in in Ik. apply made_names. right. now apply (proj1 (Q k Ik)).
  - intros k n Ik. apply make_in in Ik. now apply (proj2 (Q k Ik)).
Qed.
Lemma join_sound c f l m t : join_table env o fuel c f = Ok l -> In (m, t) l -> sound_table t.
Proof.
  intros H I. unfold join_table in H. destruct (relationship env o (f_type f)) as [[b item]|] eqn:R; [|injection H as <-; destruct I].
  binds H. binds H. destruct v0 as [[r rk] rs]. binds H. binds H. binds H. binds H. binds H. binds H. binds H. injection H as <-.
  destruct I as [I|[]]. injection I as <- <-. unfold make_table. constructor; cbn [t_columns t_pk t_constraints].
  - apply made_nodup.
  - intros k Ik. apply make_in in Ik. destruct Ik as [<-|[<-|[<-|[]]]]; discriminate.
  - intros n [<-|[]]. apply made_names. now left.
  - intros k Ik _. apply make_in in Ik. destruct Ik as [<-|[<-|[<-|[]]]]; reflexivity.
  - apply made_nodup.
  - intros k n Ik In_. apply make_in in Ik. apply made_names. destruct Ik as [<-|[<-|Ik]]; [cbn in In_; destruct In_ as [<-|[]]; right; now left|cbn in In_; destruct In_ as [<-|[]]; right; right; now left|].
    destruct b; [|destruct Ik]. destruct Ik as [<-|[]]. cbn in In_. destruct In_ as [<-|[]]. right; right; now left.
  - intros k n Ik. apply make_in in Ik. unfold df_name. destruct Ik as [<-|[<-|Ik]]; [discriminate|discriminate|]. destruct b; [|destruct Ik]. destruct Ik as [<-|[]]. discriminate.
Qed.

Lemma tables_sound ts m t : all_tables env o fuel refs = Ok ts -> In (m, t) ts -> sound_table t.
Proof.
  intros HT I. unfold all_tables in HT. binds HT. binds HT. binds HT. binds HT. binds HT. injection HT as HT'. rewrite <- HT' in I.
  repeat (apply in_app_iff in I as [I|I]).
  - unfold entity_tables in E. apply map_res_all2 in E. destruct (all2_in_r _ _ _ _ E I) as (c & Ic & Ec). binds Ec. injection Ec as <- <-.
    apply tys_in in Ic as [Ic _]. eapply class_sound; eauto.
  - destruct (enum_tables_in env o fuel _ _ _ _ E0 I) as (e & Ie & -> & Ee). eapply enum_sound; eauto.
    eapply (es_refs env o refs HC v1 E1). apply in_app_iff. eauto.
  - destruct (enum_tables_in env o fuel _ _ _ _ E2 I) as (e & Ie & -> & Ee). eapply enum_sound; eauto.
    eapply (es_refs env o refs HC v1 E1). apply in_app_iff. eauto.
  - unfold join_tables in E3. binds E3. injection E3 as <-. destruct (in_concat_ok _ _ _ _ E4 I) as (c & l & Ic & El & Il).
    binds El. injection El as <-. destruct (in_concat_ok _ _ _ _ E3 Il) as (f & l' & If & Ef & Il'). eapply join_sound; eauto.
Qed.
End Create1.
