(** Proofs about names of constraints. *)
From Verif Require Import PyStr QuoteModel ObjectDict ObjectDictProofs Types Objects Compat Convert ConvertSpec ConvertProofs
  CloseSpec CloseProofs1 CloseProofs2 CloseProofs3 CloseProofs4 CloseProofs5 Ddl NamesSpec.
From Coq Require Import Permutation Lia.
Open Scope string_scope.

(** ** Strings *)
Lemma underscore_contains s : underscore s <-> contains "_" s.
Proof. induction s as [|c s IH]; simpl; [tauto|]. rewrite IH. tauto. Qed.
Lemma app_left a : forall x y, (a ++ x)%string = (a ++ y)%string -> x = y.
Proof. induction a as [|c a IH]; simpl; intros x y H; [exact H|]. injection H as H. auto. Qed.
Lemma split_last a : forall b x y, ~ underscore x -> ~ underscore y -> (a ++ "_" ++ x)%string = (b ++ "_" ++ y)%string -> a = b /\ x = y.
Proof.
  induction a as [|c a IH]; intros [|d b] x y Nx Ny H; simpl in H.
  - injection H as ->. auto.
  - injection H as _ H. exfalso. apply Nx. rewrite H. apply underscore_app. right. simpl. auto.
  - injection H as _ H. exfalso. apply Ny. rewrite <- H. apply underscore_app. right. simpl. auto.
  - injection H as -> H. destruct (IH b x y Nx Ny H) as [-> ->]. auto.
Qed.
Lemma replace_app x r a b : replace1 x r (a ++ b) = (replace1 x r a ++ replace1 x r b)%string.
Proof. unfold replace1. induction a as [|c a IH]; simpl; [reflexivity|]. rewrite IH. now rewrite app_assoc_s. Qed.
Lemma replace_none x r a : ~ contains x a -> replace1 x r a = a.
Proof.
  unfold replace1. induction a as [|c a IH]; simpl; intros H; [reflexivity|]. destruct (Ascii.eqb c x) eqn:E; [apply Ascii.eqb_eq in E; tauto|].
  simpl. rewrite IH; tauto.
Qed.

Section Names.
Context (env : cid -> classdef) (o : copts) (refs : list cid) (fuel : nat).
Hypothesis HP : separable env o refs.

Definition plain_start (x : string) : Prop := x <> "" /\ forall s, x <> String "_" s.
Lemma prefix_split c c' p p' x x' : In c refs -> In c' refs -> qualified_prefix o c = Ok p -> qualified_prefix o c' = Ok p' ->
  (o_qualified o = true -> fst c = fst c') -> (o_qualified o = false -> plain_start x /\ plain_start x') ->
  (p ++ "_" ++ x)%string = (p' ++ "_" ++ x')%string -> c = c' /\ x = x'.
Proof.
  intros Ic Ic' P P' M S E. destruct (sp_names _ _ _ HP c Ic) as [U D]. destruct (sp_names _ _ _ HP c' Ic') as [U' D'].
  rewrite <- underscore_contains in U, U'.
  assert (FIN : fst c = fst c' -> (snd c ++ "_" ++ x)%string = (snd c' ++ "_" ++ x')%string -> c = c' /\ x = x').
  { intros A B. apply split_underscore in B as [B ->]; auto. destruct c, c'; simpl in *. subst. auto. }
  unfold qualified_prefix in P, P'. destruct (o_unique_names o) eqn:UN.
  - binds P. binds P'. injection P as <-. injection P' as <-. unfold class_qid, qualified_id_of in E0, E1. binds E0. binds E1.
    pose proof E2 as G. pose proof E3 as G'. apply ns_in in E2, E3. destruct (o_qualified o) eqn:OQ.
    + specialize (M eq_refl). injection E0 as <-. injection E1 as <-.
      assert (v1 = v2) by (rewrite M in G; congruence).
      subst v2. apply FIN; [exact M|]. destruct v1 as [s|]; cbn [compact_id] in E.
      * change (s ++ "." ++ snd c)%string with (s ++ ("." ++ snd c))%string in E. rewrite !replace_app in E. 
        rewrite (replace_none _ _ (snd c)), (replace_none _ _ (snd c')) in E by assumption.
        change (replace1 "." "_" ".") with "_" in E. rewrite !app_assoc_s in E. apply app_left in E. simpl in E. now injection E.
      * rewrite !replace_none in E by assumption. exact E.
    + specialize (S eq_refl). destruct S as [[S1 S2] [S1' S2']]. injection E0 as <-. injection E1 as <-.
      pose proof (sp_prefix _ _ _ HP OQ) as PX.
      assert (R : forall v m n, In (m, v) (o_ns o) -> ~ contains "." n -> replace1 "." "_" (compact_id (Prefixed v n)) = local_id (Prefixed v n)).
      { intros [s|] m n I N; cbn [compact_id local_id].
        - destruct (PX _ _ I) as [_ X]. change (s ++ "__" ++ n)%string with (s ++ ("__" ++ n))%string. rewrite !replace_app. rewrite !replace_none; auto. simpl. intuition discriminate.
        - now apply replace_none. }
      rewrite (R _ _ _ E2 D), (R _ _ _ E3 D') in E. clear R. destruct v1 as [a|], v2 as [b|]; cbn [local_id] in E.
      * destruct (PX _ _ E2) as [Ua _]. destruct (PX _ _ E3) as [Ub _]. rewrite <- underscore_contains in Ua, Ub.
        rewrite !app_assoc_s in E. change (a ++ "__" ++ snd c ++ "_" ++ x)%string with (a ++ "_" ++ ("_" ++ snd c ++ "_" ++ x))%string in E.
        change (b ++ "__" ++ snd c' ++ "_" ++ x')%string with (b ++ "_" ++ ("_" ++ snd c' ++ "_" ++ x'))%string in E.
        apply split_underscore in E as [-> E]; auto. simpl in E. injection E as E.
        destruct (sp_schemas _ _ _ HP _ _ _ _ E2 E3 eq_refl) as [A _]. auto.
      * destruct (PX _ _ E2) as [Ua _]. rewrite <- underscore_contains in Ua. rewrite !app_assoc_s in E.
        change (a ++ "__" ++ snd c ++ "_" ++ x)%string with (a ++ "_" ++ ("_" ++ snd c ++ "_" ++ x))%string in E.
        apply split_underscore in E as [_ E]; auto. exfalso. eapply S2'. symmetry. exact E.
      * destruct (PX _ _ E3) as [Ub _]. rewrite <- underscore_contains in Ub. rewrite !app_assoc_s in E.
        change (b ++ "__" ++ snd c' ++ "_" ++ x')%string with (b ++ "_" ++ ("_" ++ snd c' ++ "_" ++ x'))%string in E.
        apply split_underscore in E as [_ E]; auto. exfalso. eapply S2. exact E.
      * destruct (sp_schemas _ _ _ HP _ _ _ _ E2 E3 eq_refl) as [A _]. auto.
  - injection P as <-. injection P' as <-. destruct (sp_mode _ _ _ HP) as [OQ|X]; [|congruence]. apply FIN; auto.
Qed.

(** ** Names of the constraints of a table *)
Definition tags : list string := ["uq"; "fk"; "dk"; "ch"].
Definition class_name (c : cid) (p x : string) : Prop := exists tag f, In tag tags /\ In f (data_fields env c) /\ x = (tag ++ "_" ++ p ++ "_" ++ f_name f)%string.
Lemma key_name_form tag c f x : key_name o tag c f = Ok x -> exists p, qualified_prefix o c = Ok p /\ x = (tag ++ "_" ++ p ++ "_" ++ f)%string.
Proof. unfold key_name. intros H. binds H. injection H as <-. eauto. Qed.
Lemma field_named tag c f x p : In tag tags -> In f (data_fields env c) -> qualified_prefix o c = Ok p -> key_name o tag c (f_name f) = Ok x -> class_name c p x.
Proof. intros T I P H. apply key_name_form in H as (p' & P' & ->). assert (p' = p) by congruence. subst. exists tag, f. auto. Qed.
Lemma table_key_names c cols ks k : table_columns env o fuel c = Ok cols -> table_keys env o c cols = Ok ks -> In k ks ->
  exists p, qualified_prefix o c = Ok p /\ class_name c p (k_name k).
Proof.
  intros HC H J. assert (X : exists tag f, In tag tags /\ In f (data_fields env c) /\ key_name o tag c (f_name f) = Ok (k_name k)).
  { unfold table_keys in H. binds H. binds H. binds H. binds H. binds H. injection H as <-. repeat (apply in_app_iff in J as [J|J]).
    - destruct (o_foreign o) eqn:OF; [|injection E as <-; destruct J]. unfold class_constraints in E. binds E. binds E. injection E as <-.
      apply in_app_iff in J as [J|J].
      + unfold unique_constraints in E4. binds E4. injection E4 as <-. destruct (in_concat_ok _ _ _ _ E J) as (f & r & If & Ef & Ir).
        destruct (p_unique _); [|injection Ef as <-; destruct Ir]. binds Ef. injection Ef as <-. destruct Ir as [<-|[]].
        exists "uq", f. split; [unfold tags; simpl; tauto|]. split; [assumption|eassumption].
      + rewrite OF in E5. binds E5. injection E5 as <-. destruct (in_concat_ok _ _ _ _ E J) as (f & r & If & Ef & Ir).
        unfold field_reference in Ef. binds Ef. binds Ef. injection Ef as <-. apply in_app_iff in Ir as [Ir|Ir].
        * destruct (entity_of env (required_type f)); [|injection E5 as <-; destruct Ir]. binds E5. binds E5. injection E5 as <-. destruct Ir as [<-|[]].
          exists "fk", f. split; [unfold tags; simpl; tauto|]. split; [assumption|eassumption].
        * destruct (is_union (required_type f)); [|injection E6 as <-; destruct Ir]. destruct (forallb _ _); [|injection E6 as <-; destruct Ir].
          binds E6. binds E6. injection E6 as <-. destruct Ir as [<-|[]]. exists "dk", f. split; [unfold tags; simpl; tauto|]. split; [assumption|eassumption].
    - unfold extensible_constraints in E0. apply map_res_all2 in E0. destruct (all2_in_r _ _ _ _ E0 J) as (f & If & Ef).
      apply filter_In in If as [If Xf]. binds Ef. unfold enum_reference in Ef. binds Ef. binds Ef. injection Ef as <-. exists "fk", f. split; [unfold tags; simpl; tauto|]. split; [assumption|eassumption].
    - destruct (o_enum o); try (injection E1 as <-; destruct J). unfold enum_constraints in E1. apply map_res_all2 in E1.
      destruct (all2_in_r _ _ _ _ E1 J) as (f & If & Ef). unfold enum_fields in If. apply filter_In in If as [If Xf].
      binds Ef. unfold enum_reference in Ef. binds Ef. binds Ef. injection Ef as <-. exists "fk", f. split; [unfold tags; simpl; tauto|]. split; [assumption|eassumption].
    - destruct (o_enum o); try (injection E2 as <-; destruct J). destruct (o_check o); [|injection E2 as <-; destruct J].
      unfold enum_checks in E2. apply map_res_all2 in E2. destruct (all2_in_r _ _ _ _ E2 J) as (f & If & Ef).
      unfold enum_fields in If. apply filter_In in If as [If Xf]. binds Ef. binds Ef. injection Ef as <-. exists "ch", f. split; [unfold tags; simpl; tauto|]. split; [assumption|eassumption].
    - unfold column_checks in E3. binds E3. injection E3 as <-. destruct (in_concat_ok _ _ _ _ E4 J) as (col & r & If & Ef & Ir).
      destruct (check_condition col); [|injection Ef as <-; destruct Ir]. binds Ef. injection Ef as <-. destruct Ir as [<-|[]].
      unfold table_columns in HC. apply map_res_all2 in HC. destruct (all2_in_r _ _ _ _ HC If) as (f & If' & Ef). apply column_name_type in Ef as [Ef _].
      unfold column_fields in If'. apply filter_In in If' as [If' _]. exists "ch", f. split; [unfold tags; simpl; tauto|]. split; [assumption|]. rewrite <- Ef. assumption. }
  destruct X as (tag & f & T & If & K). pose proof K as K'. apply key_name_form in K' as (p & P & _). exists p. split; [exact P|]. eapply field_named; eauto.
Qed.

(** the table of which a constraint has the name [x]: of a class, of an enumeration, or a join table *)
Definition join_name_of (c : cid) (f : dfield) (p x : string) : Prop :=
  x = ("jk_" ++ p ++ "_" ++ f_name f)%string \/
  exists r, mentions (f_type f) r /\ (x = ("jk_" ++ p ++ "_" ++ f_name f ++ "_" ++ snd r)%string \/ x = ("uq_" ++ p ++ "_" ++ f_name f ++ "_" ++ snd r)%string).
Inductive owner (c : cid) (t : table) (x : string) : Prop :=
| ow_class p : qualified_prefix o c = Ok p -> is_entity_cls env c = true -> dataclass_to_table env o fuel c = Ok t -> class_name c p x -> owner c t x
| ow_enum : is_enum_cls env c = true -> enum_table env o fuel c = Ok t -> x = ("uq_" ++ snd c)%string -> owner c t x
| ow_join p f l : qualified_prefix o c = Ok p -> is_entity_cls env c = true -> In f (data_fields env c) -> join_table env o fuel c f = Ok l -> In (fst c, t) l -> join_name_of c f p x -> owner c t x.

Lemma complete_refs e : is_enum_cls env e = true -> env e <> KOther.
Proof. unfold is_enum_cls. destruct (env e); congruence. Qed.
Lemma tables_owned ts m t x : all_tables env o fuel refs = Ok ts -> In (m, t) ts -> In x (map k_name (t_constraints t)) -> exists c, In c refs /\ m = fst c /\ owner c t x.
Proof.
  intros HT I Ix. apply in_map_iff in Ix as (k & <- & Ik). unfold all_tables in HT. binds HT. binds HT. binds HT. binds HT. binds HT. injection HT as HT'. rewrite <- HT' in I.
  assert (EN : forall e t, In e refs -> enum_table env o fuel e = Ok t -> In k (t_constraints t) -> owner e t (k_name k)).
  { clear. intros e t Ie H Ik. pose proof H as T. unfold enum_table in H. binds H. binds H. destruct (env e) as [|vs|] eqn:K; try discriminate. binds H. binds H. injection H as <-.
    cbn [t_constraints make_table] in Ik. apply make_in in Ik. apply ow_enum; [unfold is_enum_cls; now rewrite K|exact T|].
    destruct v1; try discriminate.
    - binds E2. injection E2 as <-. destruct Ik as [<-|[]]. reflexivity.
    - binds E2. injection E2 as <-. destruct Ik as [<-|[]]. reflexivity.
    - destruct (env c); try discriminate. binds E2. injection E2 as <-. destruct Ik. }
  repeat (apply in_app_iff in I as [I|I]).
  - unfold entity_tables in E. apply map_res_all2 in E. destruct (all2_in_r _ _ _ _ E I) as (c & Ic & Ec). binds Ec. injection Ec as <- <-.
    apply tys_in in Ic as [Ic En]. exists c. split; [exact Ic|]. split; [reflexivity|]. pose proof E4 as T. apply table_inv in E4 as (cols & ks & tq & tk & H1 & H2 & H3 & H4 & HH).
    rewrite HH in Ik. cbn [t_constraints make_table] in Ik. apply make_in in Ik. destruct (table_key_names _ _ _ _ H1 H2 Ik) as (p & P & N). eapply ow_class; eauto.
  - destruct (enum_tables_in env o fuel _ _ _ _ E0 I) as (e & Ie & -> & Ee). apply regular_in in Ie as (_ & c & f & Ic & If & Im).
    apply tys_in in Ic as [Ic _]. apply item_enum_mentions in Im as [Im _]. exists e. assert (Ie : In e refs) by (eapply (sp_refs _ _ _ HP c f); eauto; now apply (required_mentions env)).
    split; [exact Ie|]. split; [reflexivity|]. eauto.
  - destruct (enum_tables_in env o fuel _ _ _ _ E2 I) as (e & Ie & -> & Ee). apply (extensible_out env refs v1 E1) in Ie as (c & f & Ic & If & Im & _).
    apply tys_in in Ic as [Ic _]. exists e. assert (Ie : In e refs) by (eapply (sp_refs _ _ _ HP c f); eauto; now apply (required_mentions env)).
    split; [exact Ie|]. split; [reflexivity|]. eauto.
  - unfold join_tables in E3. binds E3. injection E3 as <-. destruct (in_concat_ok _ _ _ _ E4 I) as (c & l & Ic & El & Il).
    binds El. injection El as <-. destruct (in_concat_ok _ _ _ _ E3 Il) as (f & l' & If & Ef & Il').
    apply tys_in in Ic as [Ic En]. pose proof Ef as J. unfold join_table in Ef. destruct (relationship env o (f_type f)) as [[b item]|] eqn:R; [|injection Ef as <-; destruct Il'].
    binds Ef. binds Ef. match type of Ef with context[let (_, _) := ?v in _] => destruct v as [[r rk] rs] end. binds Ef. binds Ef. binds Ef. binds Ef. binds Ef. binds Ef. binds Ef. injection Ef as Ef. rewrite <- Ef in Il'.
    destruct Il' as [Il'|[]]. injection Il' as <- <-. exists c. split; [exact Ic|]. split; [reflexivity|].
    eapply (ow_join c _ _ v6 f l'); eauto; [rewrite <- Ef; left; reflexivity|].
    assert (Mr : mentions (f_type f) r).
    { destruct (entity_of env item) as [z|] eqn:Ez.
      - binds E6. binds E6. binds E6. injection E6 as <- <- <-. apply (mentions_relationship env o _ _ _ _ R). now apply (entity_mentions env).
      - destruct (o_enum o) eqn:OE; try discriminate. destruct (unwrap item) eqn:Ui; try discriminate.
        destruct (is_enum_cls env c0) eqn:Ee; [|discriminate]. binds E6. injection E6 as <- <- <-.
        apply (mentions_relationship env o _ _ _ _ R), mentions_unwrap. rewrite Ui. constructor. }
    cbn [t_constraints make_table] in Ik. apply make_in in Ik. destruct Ik as [<-|[<-|Ik]].
    + left. reflexivity.
    + right. exists r. split; [exact Mr|]. left. cbn [k_name]. now rewrite !app_assoc_s.
    + destruct b; [|destruct Ik]. destruct Ik as [<-|[]]. right. exists r. split; [exact Mr|]. right. cbn [k_name]. now rewrite !app_assoc_s.
Qed.

Lemma start_field c f : In c refs -> In f (data_fields env c) -> o_qualified o = false -> plain_start (f_name f).
Proof. intros Ic If Q. exact (sp_fields _ _ _ HP Q c f Ic If). Qed.
Lemma start_app a b : plain_start a -> plain_start (a ++ b).
Proof. intros [A B]. destruct a as [|ch a]; [congruence|]. split; [discriminate|]. intros s E. injection E as -> _. eapply B. reflexivity. Qed.
Lemma same_field c f g : In c refs -> In f (data_fields env c) -> In g (data_fields env c) -> f_name f = f_name g -> f = g.
Proof.
  intros Ic If Ig E. pose proof (sp_distinct _ _ _ HP c Ic) as N. induction (data_fields env c) as [|z zs IH]; [destruct If|].
  simpl in N. inversion N as [|? ? N1 N2]; subst. destruct If as [->|If], Ig as [->|Ig]; auto; exfalso; apply N1; [rewrite E|rewrite <- E]; now apply in_map.
Qed.
Lemma join_single c f l m t t' : join_table env o fuel c f = Ok l -> In (m, t) l -> In (m, t') l -> t = t'.
Proof.
  unfold join_table. destruct (relationship env o (f_type f)) as [[b item]|]; [|intros [= <-] []].
  intros H I I'. binds H. binds H. match type of H with context[let (_, _) := ?v in _] => destruct v as [[r rk] rs] end.
  binds H. binds H. binds H. binds H. binds H. binds H. binds H. injection H as <-. destruct I as [I|[]], I' as [I'|[]]. injection I as _ <-. now injection I' as _ <-.
Qed.
Lemma class_name_parts c p x : In c refs -> class_name c p x -> exists tag f, In tag tags /\ In f (data_fields env c) /\ x = (tag ++ "_" ++ p ++ "_" ++ f_name f)%string /\
  (o_qualified o = false -> plain_start (f_name f)).
Proof. intros Ic (tag & f & T & If & ->). exists tag, f. split; [exact T|]. split; [exact If|]. split; [reflexivity|]. now apply start_field with (c := c). Qed.

Lemma plain_ref c f r : In c refs -> In f (data_fields env c) -> mentions (f_type f) r -> ~ underscore (snd r).
Proof. intros Ic If M. rewrite underscore_contains. apply (sp_names _ _ _ HP). exact (sp_refs _ _ _ HP c f r Ic If M). Qed.
Lemma owner_unique c t c' t' x : In c refs -> In c' refs -> owner c t x -> owner c' t' x -> (o_qualified o = true -> fst c = fst c') -> t = t'.
Proof.
  intros Ic Ic' W W' M.
  assert (CE : forall c c' p, In c' refs -> class_name c p x -> x <> ("uq_" ++ snd c')%string).
  { intros d d' p Id' (tag & f & T & If & E) E'. rewrite E in E'. assert (U : (p ++ "_" ++ f_name f)%string = snd d').
    { unfold tags in T. simpl in T. destruct T as [<-|[<-|[<-|[<-|[]]]]]; try discriminate. now injection E'. }
    apply (proj1 (sp_names _ _ _ HP d' Id')). rewrite <- U. apply underscore_contains, underscore_app. right. simpl. auto. }
  assert (EJ : forall c c' f p, In c' refs -> join_name_of c f p x -> x <> ("uq_" ++ snd c')%string).
  { intros d d' f p Id' [E|(r & _ & [E|E])] E'; rewrite E in E'; try discriminate. assert (U : (p ++ "_" ++ f_name f ++ "_" ++ snd r)%string = snd d') by now injection E'.
    apply (proj1 (sp_names _ _ _ HP d' Id')). rewrite <- U. apply underscore_contains, underscore_app. right. simpl. auto. }
  assert (CJ : forall c c' f p p', In c refs -> In c' refs -> In f (data_fields env c') -> qualified_prefix o c = Ok p -> qualified_prefix o c' = Ok p' ->
            (o_qualified o = true -> fst c = fst c') -> class_name c p x -> join_name_of c' f p' x -> False).
  { intros d d' f p p' Id Id' If P P' MM C J. destruct (class_name_parts _ _ _ Id C) as (tag & g & T & Ig & E & S).
    assert (E' : exists r, mentions (f_type f) r /\ (p ++ "_" ++ f_name g)%string = (p' ++ "_" ++ f_name f ++ "_" ++ snd r)%string).
    { unfold tags in T. simpl in T. destruct J as [J|(r & Mr & [J|J])]; rewrite J in E; destruct T as [<-|[<-|[<-|[<-|[]]]]]; try discriminate.
      exists r. split; [exact Mr|]. now injection E. }
    destruct E' as (r & Mr & E'). destruct (prefix_split d d' p p' _ _ Id Id' P P' MM (fun Q => conj (S Q) (start_app _ _ (start_field d' f Id' If Q))) E') as [<- F].
    exact (sp_joins _ _ _ HP d f g r Id If Ig Mr F). }
  destruct W as [p P En T C|Ee T ->|p f l P En If J I N], W' as [p' P' En' T' C'|Ee' T' E'|p' f' l' P' En' If' J' I' N'].
  - destruct (class_name_parts _ _ _ Ic C) as (tag & f & G & If & E & S). destruct (class_name_parts _ _ _ Ic' C') as (tag' & f' & G' & If' & E' & S').
    assert (X : (p ++ "_" ++ f_name f)%string = (p' ++ "_" ++ f_name f')%string).
    { rewrite E in E'. unfold tags in G, G'. simpl in G, G'. destruct G as [<-|[<-|[<-|[<-|[]]]]], G' as [<-|[<-|[<-|[<-|[]]]]]; try discriminate; now injection E'. }
    destruct (prefix_split c c' p p' _ _ Ic Ic' P P' M (fun Q => conj (S Q) (S' Q)) X) as [<- _]. congruence.
  - exfalso. exact (CE c c' p Ic' C E').
  - exfalso. exact (CJ c c' f' p p' Ic Ic' If' P P' M C N').
  - exfalso. exact (CE c' c p' Ic C' eq_refl).
  - assert (X : snd c = snd c') by now injection E'. assert (c = c').
    { destruct (o_qualified o) eqn:Q; [destruct c, c'; simpl in *; rewrite (M eq_refl); now subst|].
      unfold is_enum_cls in Ee, Ee'. destruct (env c) eqn:K; try discriminate. destruct (env c') eqn:K'; try discriminate. eapply (sp_enums _ _ _ HP Q); eauto. }
    subst c'. congruence.
  - exfalso. exact (EJ c' c f' p' Ic N' eq_refl).
  - exfalso. refine (CJ c' c f p' p Ic' Ic If P' P _ C' N). intros Q. symmetry. auto.
  - exfalso. exact (EJ c c' f p Ic' N E').
  - assert (Sf : o_qualified o = false -> plain_start (f_name f)) by now apply start_field with (c := c).
    assert (Sf' : o_qualified o = false -> plain_start (f_name f')) by now apply start_field with (c := c').
    assert (X : c = c' /\ f_name f = f_name f').
    { destruct N as [N|(r & Mr & [N|N])], N' as [N'|(r' & Mr' & [N'|N'])]; rewrite N in N'; try discriminate.
      - assert (X : (p ++ "_" ++ f_name f)%string = (p' ++ "_" ++ f_name f')%string) by now injection N'.
        exact (prefix_split c c' p p' _ _ Ic Ic' P P' M (fun Q => conj (Sf Q) (Sf' Q)) X).
      - assert (X : (p ++ "_" ++ f_name f)%string = (p' ++ "_" ++ f_name f' ++ "_" ++ snd r')%string) by now injection N'.
        destruct (prefix_split c c' p p' _ _ Ic Ic' P P' M (fun Q => conj (Sf Q) (start_app _ _ (Sf' Q))) X) as [<- F].
        exfalso. exact (sp_joins _ _ _ HP c f' f r' Ic If' If Mr' F).
      - assert (X : (p ++ "_" ++ f_name f ++ "_" ++ snd r)%string = (p' ++ "_" ++ f_name f')%string) by now injection N'.
        destruct (prefix_split c c' p p' _ _ Ic Ic' P P' M (fun Q => conj (start_app _ _ (Sf Q)) (Sf' Q)) X) as [<- F].
        exfalso. symmetry in F. exact (sp_joins _ _ _ HP c f f' r Ic If If' Mr F).
      - assert (X : (p ++ "_" ++ f_name f ++ "_" ++ snd r)%string = (p' ++ "_" ++ f_name f' ++ "_" ++ snd r')%string) by now injection N'.
        destruct (prefix_split c c' p p' _ _ Ic Ic' P P' M (fun Q => conj (start_app _ _ (Sf Q)) (start_app _ _ (Sf' Q))) X) as [<- F].
        split; [reflexivity|]. apply split_last in F as [F _]; [exact F|exact (plain_ref c f r Ic If Mr)|exact (plain_ref c f' r' Ic If' Mr')].
      - assert (X : (p ++ "_" ++ f_name f ++ "_" ++ snd r)%string = (p' ++ "_" ++ f_name f' ++ "_" ++ snd r')%string) by now injection N'.
        destruct (prefix_split c c' p p' _ _ Ic Ic' P P' M (fun Q => conj (start_app _ _ (Sf Q)) (start_app _ _ (Sf' Q))) X) as [<- F].
        split; [reflexivity|]. apply split_last in F as [F _]; [exact F|exact (plain_ref c f r Ic If Mr)|exact (plain_ref c f' r' Ic If' Mr')]. }
    destruct X as [<- X]. assert (f = f') by (eapply same_field; eauto). subst f'. assert (l = l') by congruence. subst l'. eapply join_single; eauto.
Qed.

(** ** Schemas of the catalog *)
Lemma nodup_flat {A B} (f : A -> list B) l : NoDup l -> (forall a, In a l -> NoDup (f a)) -> (forall a b x, In a l -> In b l -> In x (f a) -> In x (f b) -> a = b) -> NoDup (flat_map f l).
Proof.
  intros N F D. induction N as [|a l Na N IH]; simpl; [constructor|].
  assert (X : NoDup (flat_map f l)) by (apply IH; [intros; apply F; now right|intros b c x Ib Ic; apply D; now right]).
  assert (Y : forall x, In x (f a) -> ~ In x (flat_map f l)).
  { intros x Ix I. apply in_flat_map in I as (b & Ib & Ix'). assert (a = b) by (eapply D; [now left|right; exact Ib|exact Ix|exact Ix']). subst. contradiction. }
  clear - X Y F. specialize (F a (or_introl eq_refl)). induction F as [|x r Nx _ IH]; simpl; [exact X|]. constructor.
  - rewrite in_app_iff. intros [I|I]; [contradiction|]. exact (Y x (or_introl eq_refl) I).
  - apply IH. intros y Iy. apply Y. now right.
Qed.
Lemma make_nodup {A} (key : A -> string) l : NoDup (map key (od_make key l)).
Proof. apply make_wf. Qed.
Lemma table_names_distinct ts m t : all_tables env o fuel refs = Ok ts -> In (m, t) ts -> NoDup (map k_name (t_constraints t)).
Proof.
  intros HT I. assert (X : exists ks, t_constraints t = od_make k_name ks).
  { unfold all_tables in HT. binds HT. binds HT. binds HT. binds HT. binds HT. injection HT as HT'. rewrite <- HT' in I.
    assert (EN : forall e t, enum_table env o fuel e = Ok t -> exists ks, t_constraints t = od_make k_name ks).
    { clear. intros e t H. unfold enum_table in H. binds H. binds H. destruct (env e) as [|vs|] eqn:K; try discriminate. binds H. binds H. injection H as <-. eexists. reflexivity. }
    repeat (apply in_app_iff in I as [I|I]).
    - unfold entity_tables in E. apply map_res_all2 in E. destruct (all2_in_r _ _ _ _ E I) as (c & Ic & Ec). binds Ec. injection Ec as <- <-.
      apply table_inv in E4 as (cols & ks & tq & tk & H1 & H2 & H3 & H4 & ->). eexists. reflexivity.
    - destruct (enum_tables_in env o fuel _ _ _ _ E0 I) as (e & Ie & -> & Ee). eauto.
    - destruct (enum_tables_in env o fuel _ _ _ _ E2 I) as (e & Ie & -> & Ee). eauto.
    - unfold join_tables in E3. binds E3. injection E3 as <-. destruct (in_concat_ok _ _ _ _ E4 I) as (c & l & Ic & El & Il).
      binds El. injection El as <-. destruct (in_concat_ok _ _ _ _ E3 Il) as (f & l' & If & Ef & Il').
      unfold join_table in Ef. destruct (relationship env o (f_type f)) as [[b item]|] eqn:R; [|injection Ef as <-; destruct Il'].
      binds Ef. binds Ef. match type of Ef with context[let (_, _) := ?v in _] => destruct v as [[r rk] rs] end.
      binds Ef. binds Ef. binds Ef. binds Ef. binds Ef. binds Ef. binds Ef. injection Ef as <-. destruct Il' as [Il'|[]]. injection Il' as <- <-. eexists. reflexivity. }
  destruct X as (ks & ->). apply make_nodup.
Qed.

Theorem schema_names topo cat n : dataclasses_to_catalog env o fuel topo refs = Ok cat -> In n cat -> NoDup (constraint_names n).
Proof.
  intros H I. unfold dataclasses_to_catalog in H. binds H. binds H. binds H.
  assert (X : exists l, n_tables n = od_make t_key l /\ forall t t', In t l -> In t' l -> exists m m', In (m, t) v1 /\ In (m', t') v1 /\ (o_qualified o = true -> m = m')).
  { unfold make_catalog in H. destruct (o_qualified o) eqn:Q.
    - binds H. injection H as <-. apply make_in in I. apply map_res_all2 in E2. destruct (all2_in_r _ _ _ _ E2 I) as ([m g] & Ig & Eg).
      binds Eg. injection Eg as <-. exists g. split; [reflexivity|]. intros t t' It It'. exists m, m. split; [|split; [|reflexivity]]; apply multi_of_in; exists g; auto.
    - injection H as <-. destruct I as [<-|[]]. eexists. split; [reflexivity|]. intros t t' It It'.
      apply in_concat in It as (g & Ig & It). apply in_map_iff in Ig as ([m g0] & <- & Ig). apply in_concat in It' as (g' & Ig' & It'). apply in_map_iff in Ig' as ([m' g0'] & <- & Ig').
      exists m, m'. split; [apply multi_of_in; exists g0; auto|]. split; [apply multi_of_in; exists g0'; auto|discriminate]. }
  destruct X as (l & E2 & X). unfold constraint_names. rewrite E2. apply nodup_flat.
  - eapply NoDup_map_inv. apply make_nodup.
  - intros t It. apply make_in in It. destruct (X t t It It) as (m & _ & Im & _). eapply table_names_distinct; eauto.
  - intros t t' x It It' Ix Ix'. apply make_in in It, It'. destruct (X t t' It It') as (m & m' & Im & Im' & Q).
    destruct (tables_owned _ _ _ _ E1 Im Ix) as (c & Ic & -> & W). destruct (tables_owned _ _ _ _ E1 Im' Ix') as (c' & Ic' & -> & W').
    exact (owner_unique c t c' t' x Ic Ic' W W' Q).
Qed.

(** ** Primary keys *)
Lemma contains_app x a b : contains x (a ++ b) -> contains x a \/ contains x b.
Proof. induction a as [|c a IH]; simpl; [tauto|]. intros [H|H]; [tauto|]. apply IH in H. tauto. Qed.
Lemma table_id ts m t : all_tables env o fuel refs = Ok ts -> In (m, t) ts -> exists n, qualified_id_of o m n = Ok (t_name t) /\ ~ contains "." n.
Proof.
  intros HT I. unfold all_tables in HT. binds HT. binds HT. binds HT. binds HT. binds HT. injection HT as HT'. rewrite <- HT' in I.
  assert (EN : forall e t, In e refs -> enum_table env o fuel e = Ok t -> exists n, qualified_id_of o (fst e) n = Ok (t_name t) /\ ~ contains "." n).
  { clear - HP. intros e t Ie H. unfold enum_table in H. binds H. binds H. destruct (env e) as [|vs|] eqn:K; try discriminate. binds H. binds H. injection H as <-.
    exists (snd e). split; [exact E|]. now apply (sp_names _ _ _ HP). }
  repeat (apply in_app_iff in I as [I|I]).
  - unfold entity_tables in E. apply map_res_all2 in E. destruct (all2_in_r _ _ _ _ E I) as (c & Ic & Ec). binds Ec. injection Ec as <- <-.
    apply tys_in in Ic as [Ic _]. apply table_inv in E4 as (cols & ks & tq & tk & H1 & H2 & H3 & H4 & ->). exists (snd c). split; [exact H3|]. now apply (sp_names _ _ _ HP).
  - destruct (enum_tables_in env o fuel _ _ _ _ E0 I) as (e & Ie & -> & Ee). apply regular_in in Ie as (_ & c & f & Ic & If & Im).
    apply tys_in in Ic as [Ic _]. apply item_enum_mentions in Im as [Im _]. apply EN; [|exact Ee]. eapply (sp_refs _ _ _ HP c f); eauto; now apply (required_mentions env).
  - destruct (enum_tables_in env o fuel _ _ _ _ E2 I) as (e & Ie & -> & Ee). apply (extensible_out env refs v1 E1) in Ie as (c & f & Ic & If & Im & _).
    apply tys_in in Ic as [Ic _]. apply EN; [|exact Ee]. eapply (sp_refs _ _ _ HP c f); eauto; now apply (required_mentions env).
  - unfold join_tables in E3. binds E3. injection E3 as <-. destruct (in_concat_ok _ _ _ _ E4 I) as (c & l & Ic & El & Il).
    binds El. injection El as <-. destruct (in_concat_ok _ _ _ _ E3 Il) as (f & l' & If & Ef & Il').
    apply tys_in in Ic as [Ic En]. unfold join_table in Ef. destruct (relationship env o (f_type f)) as [[b item]|] eqn:R; [|injection Ef as <-; destruct Il'].
    binds Ef. binds Ef. match type of Ef with context[let (_, _) := ?v in _] => destruct v as [[r rk] rs] end. binds Ef. binds Ef. binds Ef. binds Ef. binds Ef. binds Ef. binds Ef. injection Ef as Ef. rewrite <- Ef in Il'.
    destruct Il' as [Il'|[]]. injection Il' as <- <-. cbn [t_name make_table]. eexists. split; [eassumption|].
    assert (Mr : mentions (f_type f) r).
    { destruct (entity_of env item) as [z|] eqn:Ez.
      - binds E6. binds E6. binds E6. injection E6 as <- <- <-. apply (mentions_relationship env o _ _ _ _ R). now apply (entity_mentions env).
      - destruct (o_enum o) eqn:OE; try discriminate. destruct (unwrap item) eqn:Ui; try discriminate.
        destruct (is_enum_cls env c0) eqn:Ee; [|discriminate]. binds E6. injection E6 as <- <- <-.
        apply (mentions_relationship env o _ _ _ _ R), mentions_unwrap. rewrite Ui. constructor. }
    intros C. assert (U : ~ contains "." "_") by (simpl; intuition discriminate).
    repeat (apply contains_app in C as [C|C]; try (now apply U)).
    + now apply (sp_names _ _ _ HP c Ic) in C.
    + now apply (sp_identifiers _ _ _ HP c f Ic If) in C.
    + apply (sp_refs _ _ _ HP c f r Ic If) in Mr. now apply (sp_names _ _ _ HP r Mr) in C.
Qed.

Lemma pk_injective d m n n' q q' m' : qualified_id_of o m n = Ok q -> qualified_id_of o m' n' = Ok q' -> (o_qualified o = true -> m = m') ->
  ~ contains "." n -> ~ contains "." n' -> pk_name d q = pk_name d q' -> local_id q = local_id q'.
Proof.
  intros Q Q' M N N' E. unfold qualified_id_of in Q, Q'. binds Q. binds Q'. unfold pk_name in E. apply (app_left "pk_") in E.
  pose proof E0 as G. pose proof E1 as G'. apply ns_in in E0, E1. destruct (o_qualified o) eqn:OQ.
  - injection Q as <-. injection Q' as <-. specialize (M eq_refl). subst m'. assert (v = v0) by congruence. subst v0. cbn [local_id].
    assert (X : forall p, replace1 "." "_" (p ++ n) = replace1 "." "_" (p ++ n') -> n = n').
    { intros p Y. rewrite !replace_app in Y. apply app_left in Y. now rewrite !replace_none in Y. }
    destruct d; try (apply (X ""); exact E); (destruct v as [s|]; cbn [compact_id] in E; [apply (X (s ++ ".")%string); now rewrite !app_assoc_s|apply (X ""); exact E]).
  - injection Q as <-. injection Q' as <-.
    assert (R : forall v m n, In (m, v) (o_ns o) -> ~ contains "." n -> replace1 "." "_" (local_id (Prefixed v n)) = local_id (Prefixed v n)).
    { intros [s|] k x I X; cbn [local_id]; apply replace_none; [|exact X]. intros C. apply contains_app in C as [C|C]; [now apply (sp_prefix _ _ _ HP OQ _ _ I) in C|].
      simpl in C. intuition discriminate. }
    assert (Y : replace1 "." "_" (local_id (Prefixed v n)) = replace1 "." "_" (local_id (Prefixed v0 n'))) by (destruct d; exact E).
    now rewrite (R _ _ _ E0 N), (R _ _ _ E1 N') in Y.
Qed.

Lemma owned_tag c t x : owner c t x -> forall s, x <> ("pk_" ++ s)%string.
Proof.
  intros W s. destruct W as [p _ _ _ (tag & f & T & _ & ->)|_ _ ->|p f l _ _ _ _ _ [->|(r & _ & [-> | ->])]]; try discriminate.
  unfold tags in T. simpl in T. destruct T as [<-|[<-|[<-|[<-|[]]]]]; discriminate.
Qed.

Theorem schema_keys topo cat n d : dataclasses_to_catalog env o fuel topo refs = Ok cat -> In n cat ->
  NoDup (map (fun t => pk_name d (t_name t)) (n_tables n) ++ constraint_names n).
Proof.
  intros H I. pose proof (schema_names topo cat n H I) as ND. unfold dataclasses_to_catalog in H. binds H. binds H. binds H.
  assert (X : exists l, n_tables n = od_make t_key l /\ forall t t', In t l -> In t' l -> exists m m', In (m, t) v1 /\ In (m', t') v1 /\ (o_qualified o = true -> m = m')).
  { unfold make_catalog in H. destruct (o_qualified o) eqn:Q.
    - binds H. injection H as <-. apply make_in in I. apply map_res_all2 in E2. destruct (all2_in_r _ _ _ _ E2 I) as ([m g] & Ig & Eg).
      binds Eg. injection Eg as <-. exists g. split; [reflexivity|]. intros t t' It It'. exists m, m. split; [|split; [|reflexivity]]; apply multi_of_in; exists g; auto.
    - injection H as <-. destruct I as [<-|[]]. eexists. split; [reflexivity|]. intros t t' It It'.
      apply in_concat in It as (g & Ig & It). apply in_map_iff in Ig as ([m g0] & <- & Ig). apply in_concat in It' as (g' & Ig' & It'). apply in_map_iff in Ig' as ([m' g0'] & <- & Ig').
      exists m, m'. split; [apply multi_of_in; exists g0; auto|]. split; [apply multi_of_in; exists g0'; auto|discriminate]. }
  destruct X as (l & E2 & X). 
  assert (PK : forall t t', In t (n_tables n) -> In t' (n_tables n) -> pk_name d (t_name t) = pk_name d (t_name t') -> t_key t = t_key t').
  { rewrite E2. intros t t' It It' P. apply make_in in It, It'. destruct (X t t' It It') as (m & m' & Im & Im' & Q).
    destruct (table_id _ _ _ E1 Im) as (a & A & NA). destruct (table_id _ _ _ E1 Im') as (b & B & NB).
    exact (pk_injective d _ _ _ _ _ _ A B Q NA NB P). }
  assert (KK : NoDup (map t_key (n_tables n))) by (rewrite E2; apply make_nodup).
  assert (N1 : NoDup (map (fun t => pk_name d (t_name t)) (n_tables n))).
  { clear - PK KK. induction (n_tables n) as [|t r IH]; simpl; [constructor|]. inversion KK as [|? ? K1 K2]; subst. constructor.
    - intros J. apply in_map_iff in J as (t' & Et & It). apply K1. rewrite (PK t t'); [now apply in_map|now left|now right|now symmetry].
    - apply IH; [intros; apply PK; auto; now right|exact K2]. }
  assert (DJ : forall x, In x (map (fun t => pk_name d (t_name t)) (n_tables n)) -> ~ In x (constraint_names n)).
  { intros x J K. apply in_map_iff in J as (t' & <- & _). unfold constraint_names in K. apply in_flat_map in K as (t & It & Ix). rewrite E2 in It. apply make_in in It.
    destruct (X t t It It) as (m & _ & Im & _). destruct (tables_owned _ _ _ _ E1 Im Ix) as (c & _ & _ & W). exact (owned_tag _ _ _ W _ eq_refl). }
  clear - N1 ND DJ. induction N1 as [|x r Nx _ IH]; simpl; [exact ND|]. constructor.
  - rewrite in_app_iff. intros [J|J]; [contradiction|]. exact (DJ x (or_introl eq_refl) J).
  - apply IH. intros y Iy. apply DJ. now right.
Qed.
End Names.

(** ** No constraint of a class is lost *)
Section Kept.
Context (env : cid -> classdef) (o : copts) (fuel : nat) (c : cid) (t : table).
Hypothesis ND : NoDup (map f_name (data_fields env c)).
Hypothesis HT : dataclass_to_table env o fuel c = Ok t.

Lemma field_eq f g : In f (data_fields env c) -> In g (data_fields env c) -> f_name f = f_name g -> f = g.
Proof.
  intros If Ig E. revert ND If Ig. induction (data_fields env c) as [|z zs IH]; simpl; intros N If Ig; [destruct If|].
  inversion N as [|? ? N1 N2]; subst. destruct If as [->|If], Ig as [->|Ig]; auto; exfalso; apply N1; [rewrite E|rewrite <- E]; now apply in_map.
Qed.
(** where a constraint of the table comes from *)
Inductive source (k : constr) : Prop :=
| so_unique f n : In f (data_fields env c) -> key_name o "uq" c (f_name f) = Ok n -> k = CUnique n [f_name f] -> source k
| so_entity f n r q : In f (data_fields env c) -> entity_of env (required_type f) = Some r -> key_name o "fk" c (f_name f) = Ok n -> reference_to env o r = Ok q ->
    k = CForeign n [f_name f] (fst q) (snd q) -> source k
| so_union f n : In f (data_fields env c) -> key_name o "dk" c (f_name f) = Ok n -> (exists rs, k = CDiscr n [f_name f] rs /\
    map_res (fun m => match entity_of env m with Some r => reference_to env o r | None => Err "TypeError" end) (map evaluate (union_members (required_type f))) = Ok rs) -> source k
| so_ext f n e q : In f (data_fields env c) -> is_extensible env (required_type f) = true -> extensible_enum env (required_type f) = Ok e -> key_name o "fk" c (f_name f) = Ok n ->
    class_qid o e = Ok q -> k = CForeign n [f_name f] q ["id"] -> source k
| so_enum f n e q : In f (data_fields env c) -> is_type_enum env (required_type f) = true -> enum_class (required_type f) = Ok e -> key_name o "fk" c (f_name f) = Ok n ->
    class_qid o e = Ok q -> k = CForeign n [f_name f] q ["id"] -> source k
| so_check f n s : In f (data_fields env c) -> key_name o "ch" c (f_name f) = Ok n -> k = CCheck n s -> source k.
Lemma sources cols ks k : table_columns env o fuel c = Ok cols -> table_keys env o c cols = Ok ks -> In k ks -> source k.
Proof.
  intros HC H J. unfold table_keys in H. binds H. binds H. binds H. binds H. binds H. injection H as <-. repeat (apply in_app_iff in J as [J|J]).
  - destruct (o_foreign o) eqn:OF; [|injection E as <-; destruct J]. unfold class_constraints in E. binds E. binds E. injection E as <-.
    apply in_app_iff in J as [J|J].
    + unfold unique_constraints in E4. binds E4. injection E4 as <-. destruct (in_concat_ok _ _ _ _ E J) as (f & r & If & Ef & Ir).
      destruct (p_unique _); [|injection Ef as <-; destruct Ir]. binds Ef. injection Ef as <-. destruct Ir as [<-|[]]. eapply so_unique; eauto.
    + rewrite OF in E5. binds E5. injection E5 as <-. destruct (in_concat_ok _ _ _ _ E J) as (f & r & If & Ef & Ir).
      unfold field_reference in Ef. binds Ef. binds Ef. injection Ef as <-. apply in_app_iff in Ir as [Ir|Ir].
      * destruct (entity_of env (required_type f)) eqn:En; [|injection E5 as <-; destruct Ir]. binds E5. binds E5. injection E5 as <-. destruct Ir as [<-|[]]. eapply so_entity; eauto.
      * destruct (is_union (required_type f)); [|injection E6 as <-; destruct Ir]. destruct (forallb _ _); [|injection E6 as <-; destruct Ir].
        binds E6. binds E6. injection E6 as <-. destruct Ir as [<-|[]]. eapply so_union; eauto.
  - unfold extensible_constraints in E0. apply map_res_all2 in E0. destruct (all2_in_r _ _ _ _ E0 J) as (f & If & Ef).
    apply filter_In in If as [If Xf]. binds Ef. unfold enum_reference in Ef. binds Ef. binds Ef. injection Ef as <-. eapply so_ext; eauto.
  - destruct (o_enum o); try (injection E1 as <-; destruct J). unfold enum_constraints in E1. apply map_res_all2 in E1.
    destruct (all2_in_r _ _ _ _ E1 J) as (f & If & Ef). unfold enum_fields in If. apply filter_In in If as [If Xf].
    binds Ef. unfold enum_reference in Ef. binds Ef. binds Ef. injection Ef as <-. eapply so_enum; eauto.
  - destruct (o_enum o); try (injection E2 as <-; destruct J). destruct (o_check o); [|injection E2 as <-; destruct J].
    unfold enum_checks in E2. apply map_res_all2 in E2. destruct (all2_in_r _ _ _ _ E2 J) as (f & If & Ef).
    unfold enum_fields in If. apply filter_In in If as [If Xf]. binds Ef. binds Ef. injection Ef as <-. eapply so_check; eauto.
  - unfold column_checks in E3. binds E3. injection E3 as <-. destruct (in_concat_ok _ _ _ _ E4 J) as (col & r & If & Ef & Ir).
    destruct (check_condition col); [|injection Ef as <-; destruct Ir]. binds Ef. injection Ef as <-. destruct Ir as [<-|[]].
    unfold table_columns in HC. apply map_res_all2 in HC. destruct (all2_in_r _ _ _ _ HC If) as (f & If' & Ef). apply column_name_type in Ef as [Ef _].
    unfold column_fields in If'. apply filter_In in If' as [If' _]. rewrite Ef in E3. eapply so_check; eauto.
Qed.
Lemma key_name_eq tag f tag' g n : In f (data_fields env c) -> In g (data_fields env c) ->
  key_name o tag c (f_name f) = Ok n -> key_name o tag' c (f_name g) = Ok n -> In tag tags -> In tag' tags -> tag = tag' /\ f = g.
Proof.
  intros If Ig A B T T'. apply key_name_form in A as (p & P & ->). apply key_name_form in B as (p' & P' & B). assert (p' = p) by congruence. subst p'.
  assert (X : tag = tag' /\ (p ++ "_" ++ f_name f)%string = (p ++ "_" ++ f_name g)%string).
  { unfold tags in T, T'. simpl in T, T'. destruct T as [<-|[<-|[<-|[<-|[]]]]], T' as [<-|[<-|[<-|[<-|[]]]]]; try discriminate; (split; [reflexivity|now injection B]). }
  destruct X as [-> X]. apply app_left in X. simpl in X. injection X as X. split; [reflexivity|]. now apply field_eq.
Qed.
Ltac tag_in := unfold tags; simpl; tauto.

(** constraints with the same name are equal *)
Lemma same_name k k' : source k -> source k' -> (forall n s, k <> CCheck n s) -> k_name k = k_name k' -> k' = k.
Proof.
  intros S S' NC E.
  destruct S as [f n If K ->|f n r q If En K Q ->|f n If K (rs & -> & Q)|f n e q If Xt Xe K Q ->|f n e q If Xt Xe K Q ->|f n s If K ->];
  destruct S' as [g m Ig L ->|g m r' q' Ig En' L Q' ->|g m Ig L (rs' & -> & Q')|g m e' q' Ig Xt' Xe' L Q' ->|g m e' q' Ig Xt' Xe' L Q' ->|g m s' Ig L ->];
  cbn [k_name] in E; subst m; try (exfalso; eapply NC; reflexivity);
  destruct (key_name_eq _ _ _ _ _ If Ig K L ltac:(tag_in) ltac:(tag_in)) as [TT <-]; try discriminate; try reflexivity; try congruence.
  all: try (exfalso; apply entity_unwrap in En; unfold is_extensible, is_union in Xt'; rewrite En in Xt'; discriminate).
  all: try (exfalso; apply entity_unwrap in En'; unfold is_extensible, is_union in Xt; rewrite En' in Xt; discriminate).
  all: try (exfalso; destruct (is_type_enum_inv env _ Xt') as (z & Uz & Ez); destruct (entity_dataclass env _ _ En) as [D _];
            unfold dataclass_of in D; rewrite Uz in D; unfold is_enum_cls in Ez; destruct (env z); discriminate).
  all: try (exfalso; destruct (is_type_enum_inv env _ Xt) as (z & Uz & Ez); destruct (entity_dataclass env _ _ En') as [D _];
            unfold dataclass_of in D; rewrite Uz in D; unfold is_enum_cls in Ez; destruct (env z); discriminate).
  all: try (exfalso; destruct (is_type_enum_inv env _ Xt') as (z & Uz & Ez); unfold is_extensible, is_union in Xt; rewrite Uz in Xt; discriminate).
  all: try (exfalso; destruct (is_type_enum_inv env _ Xt) as (z & Uz & Ez); unfold is_extensible, is_union in Xt'; rewrite Uz in Xt'; discriminate).
Qed.
Lemma kept cols ks k : table_columns env o fuel c = Ok cols -> table_keys env o c cols = Ok ks -> In k ks -> (forall n s, k <> CCheck n s) -> In k (od_make k_name ks).
Proof.
  intros HC HK I NC. apply make_keep; [exact I|]. intros y Iy E. apply same_name; auto; eapply sources; eauto.
Qed.
Lemma kept_table k : (forall n s, k <> CCheck n s) -> (forall cols ks, table_columns env o fuel c = Ok cols -> table_keys env o c cols = Ok ks -> In k ks) -> In k (t_constraints t).
Proof.
  intros NC H. pose proof HT as T. apply table_inv in T as (cols & ks & q & kn & H1 & H2 & H3 & H4 & ->). cbn [t_constraints make_table]. eapply kept; eauto.
Qed.
End Kept.
