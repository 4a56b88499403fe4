(** Proofs about closed catalogs, part 5: the tables of the catalog. *)
From Verif Require Import PyStr QuoteModel ObjectDict ObjectDictProofs Types Objects Compat Convert ConvertSpec ConvertProofs CloseSpec CloseProofs1 CloseProofs2 CloseProofs3 CloseProofs4.
From Coq Require Import Permutation Lia.
Open Scope string_scope.

Section Close5.
Context (env : cid -> classdef) (o : copts) (refs : list cid) (fuel : nat).
Hypothesis HO : ordinary env o refs.
Hypothesis HC : complete env refs.

(** a table of the class [c], or a join table of the class *)
Definition class_table (es : list cid) (c : cid) (t : table) : Prop :=
  (is_entity_cls env c = true /\ dataclass_to_table env o fuel c = Ok t) \/ (In c es /\ is_enum_cls env c = true /\ enum_table env o fuel c = Ok t).

Section Tables.
  Context (ts : list (string * table)) (xs : list cid).
  Let tys := table_types env refs.
  Let es := (regular_enums env o tys ++ xs)%list.
  Hypothesis HX : extensible_enums env tys = Ok xs.
  Hypothesis HT : all_tables env o fuel refs = Ok ts.

  Lemma tys_in c : In c tys <-> In c refs /\ is_entity_cls env c = true.
  Proof. unfold tys, table_types. now rewrite sort_names_in, filter_In. Qed.
  Lemma item_enum_mentions t e : In e (item_enum env t) -> mentions t e /\ is_enum_cls env e = true.
  Proof.
    unfold item_enum. intros I. assert (M : mentions (unwrap t) e /\ is_enum_cls env e = true).
    { destruct (unwrap t) as [| | | | | | | | | | | | | | | | |c|c|t' ms|l|x|x|l] eqn:U; try destruct I.
      - destruct (is_enum_cls env c) eqn:E; [|destruct I]. destruct I as [<-|[]]. split; [constructor|exact E].
      - destruct (unwrap x) eqn:W; try destruct I. destruct (is_enum_cls env c) eqn:E; [|destruct I]. destruct I as [<-|[]]. split; [|exact E].
        constructor. apply mentions_unwrap. rewrite W. constructor.
      - destruct (unwrap x) eqn:W; try destruct I. destruct (is_enum_cls env c) eqn:E; [|destruct I]. destruct I as [<-|[]]. split; [|exact E].
        constructor. apply mentions_unwrap. rewrite W. constructor. }
    split; [|apply M]. apply mentions_unwrap, M.
  Qed.
  Lemma regular_in e : In e (regular_enums env o tys) <->
    o_enum o = EmRelation /\ exists c f, In c tys /\ In f (data_fields env c) /\ In e (item_enum env (required_type f)).
  Proof.
    unfold regular_enums. destruct (o_enum o); try (split; [intros []|intros [? _]; discriminate]).
    unfold as_set. rewrite nodup_In, in_flat_map. split.
    - intros (c & Ic & I). apply in_flat_map in I as (f & If & I). split; [reflexivity|]. eauto.
    - intros (_ & c & f & Ic & If & I). exists c. split; [exact Ic|]. apply in_flat_map. eauto.
  Qed.
  Lemma extensible_in c f e : In c tys -> In f (data_fields env c) -> is_extensible env (required_type f) = true ->
    extensible_enum env (required_type f) = Ok e -> In e xs.
  Proof.
    intros Ic If Xf Xe. unfold extensible_enums in HX. binds HX. injection HX as HX'. rewrite <- HX'. unfold as_set. apply nodup_In.
    apply map_res_all2 in E. destruct (all2_in_l _ _ _ _ E Ic) as (l & Il & El). apply map_res_all2 in El.
    assert (J : In f (filter (fun f => is_extensible env (required_type f)) (fields_of env c))) by (apply filter_In; auto).
    destruct (all2_in_l _ _ _ _ El J) as (e' & Ie & Ee). apply in_concat. exists l. split; [exact Il|]. congruence.
  Qed.
  Lemma extensible_out e : In e xs -> exists c f, In c tys /\ In f (data_fields env c) /\ mentions (required_type f) e /\ is_enum_cls env e = true.
  Proof.
    intros I. unfold extensible_enums in HX. binds HX. injection HX as HX'. rewrite <- HX' in I. unfold as_set in I. apply nodup_In in I.
    destruct (in_concat_ok _ _ _ _ E I) as (c & l & Ic & El & Il). apply map_res_all2 in El.
    destruct (all2_in_r _ _ _ _ El Il) as (f & If & Ef). apply filter_In in If as [If Xf]. exists c, f. split; [exact Ic|]. split; [exact If|].
    unfold extensible_enum in Ef. destruct (find _ _) as [u|] eqn:Q; [|discriminate]. apply find_some in Q as [Iu Q].
    destruct (is_type_enum_inv env u Q) as (e' & Ue & Ee). rewrite Ue in Ef. injection Ef as ->. split; [|exact Ee].
    apply in_map_iff in Iu as (y & <- & Iy). apply (mentions_members env _ y _ Iy), mentions_evaluate, mentions_unwrap. rewrite Ue. constructor.
  Qed.
  Lemma es_refs e : In e es -> In e refs.
  Proof.
    intros I. unfold es in I. apply in_app_iff in I as [I|I].
    - apply regular_in in I as (_ & c & f & Ic & If & I). apply tys_in in Ic as [Ic _]. apply item_enum_mentions in I as [I _].
      apply (HC c f e Ic If). now apply (required_mentions env).
    - apply extensible_out in I as (c & f & Ic & If & I & _). apply tys_in in Ic as [Ic _].
      apply (HC c f e Ic If). now apply (required_mentions env).
  Qed.
  Lemma es_enum e : In e es -> is_enum_cls env e = true.
  Proof.
    intros I. unfold es in I. apply in_app_iff in I as [I|I].
    - apply regular_in in I as (_ & c & f & Ic & If & I). now apply item_enum_mentions in I as [_ I].
    - apply extensible_out in I as (c & f & Ic & If & _ & I). exact I.
  Qed.

  Lemma enum_tables_in l l' m t : enum_tables env o fuel l = Ok l' -> In (m, t) l' -> exists e, In e l /\ m = fst e /\ enum_table env o fuel e = Ok t.
  Proof.
    unfold enum_tables. intros H I. apply map_res_all2 in H. destruct (all2_in_r _ _ _ _ H I) as (e & Ie & E). rewrite sort_names_in in Ie.
    binds E. injection E as <- <-. eauto.
  Qed.
  Lemma enum_tables_out l l' e : enum_tables env o fuel l = Ok l' -> In e l -> exists t, In (fst e, t) l' /\ enum_table env o fuel e = Ok t.
  Proof.
    unfold enum_tables. intros H I. apply map_res_all2 in H. rewrite <- sort_names_in in I. destruct (all2_in_l _ _ _ _ H I) as (p & Ip & E).
    binds E. injection E as <-. eauto.
  Qed.

  (** every table is of a class, or a join table; its references resolve *)
  Lemma tables_cases m t : In (m, t) ts -> exists c n, In c refs /\ m = fst c /\ qualified_id_of o (fst c) n = Ok (t_name t) /\
    ((n = snd c /\ class_table es c t) \/ (exists f r, n = join_name c f r /\ In f (data_fields env c))) /\
    (forall k cols q keys, In k (t_constraints t) -> refers k cols q keys -> resolved env o refs es t cols q keys).
  Proof.
    intros I. unfold all_tables in HT. binds HT. binds HT. binds HT. binds HT. binds HT. injection HT as HT'. fold tys in E, E0, E1, E3.
    assert (v1 = xs) by congruence. subst v1. rewrite <- HT' in I. repeat (apply in_app_iff in I as [I|I]).
    - unfold entity_tables in E. apply map_res_all2 in E. destruct (all2_in_r _ _ _ _ E I) as (c & Ic & Ec). binds Ec. injection Ec as <- <-.
      pose proof Ic as Ic'. apply tys_in in Ic as [Ic En]. exists c, (snd c). split; [exact Ic|]. split; [reflexivity|]. 
      pose proof E4 as T. apply table_inv in T as (cs & ks & tq & tk & H1 & H2 & H3 & H4 & HH). split; [rewrite HH; exact H3|].
      split; [left; split; [reflexivity|]; left; auto|]. intros k cols q keys Ik R. eapply (class_resolved env o refs HO HC); eauto.
      + intros f If Xf e Xe. unfold es. apply in_app_iff. right. eapply extensible_in; eauto.
      + intros f e OE If U Ee. unfold es. apply in_app_iff. left. apply regular_in. split; [exact OE|]. exists c, f. split; [exact Ic'|]. split; [exact If|].
        unfold item_enum. rewrite U, Ee. now left.
    - destruct (enum_tables_in _ _ _ _ E0 I) as (e & Ie & -> & Ee). assert (Ies : In e es) by (unfold es; apply in_app_iff; auto).
      destruct (enum_table_facts env o refs fuel HO e t (es_refs _ Ies) Ee) as (A & B & C & D & F).
      exists e, (snd e). split; [now apply es_refs|]. split; [reflexivity|]. split; [exact A|]. split; [left; split; [reflexivity|]; right; auto|].
      intros k cols q keys Ik R. exfalso. exact (D k cols q keys Ik R).
    - destruct (enum_tables_in _ _ _ _ E2 I) as (e & Ie & -> & Ee). assert (Ies : In e es) by (unfold es; apply in_app_iff; auto).
      destruct (enum_table_facts env o refs fuel HO e t (es_refs _ Ies) Ee) as (A & B & C & D & F).
      exists e, (snd e). split; [now apply es_refs|]. split; [reflexivity|]. split; [exact A|]. split; [left; split; [reflexivity|]; right; auto|].
      intros k cols q keys Ik R. exfalso. exact (D k cols q keys Ik R).
    - unfold join_tables in E3. binds E3. injection E3 as <-. destruct (in_concat_ok _ _ _ _ E4 I) as (c & l & Ic & El & Il).
      binds El. injection El as <-. destruct (in_concat_ok _ _ _ _ E3 Il) as (f & l' & If & Ef & Il').
      pose proof Ic as Ic'. apply tys_in in Ic as [Ic En].
      destruct (join_table_facts env o refs fuel HO HC es c f l' m t Ic If En) as (-> & (r & Q) & R); auto.
      { intros e OE IE. unfold es. apply in_app_iff. left. apply regular_in. split; [exact OE|]. exists c, f. rewrite IE. simpl. auto. }
      exists c, (join_name c f r). split; [exact Ic|]. split; [reflexivity|]. split; [exact Q|]. split; [right; eauto|exact R].
  Qed.

  (** a class that is referred to has a table *)
  Lemma tables_exist c : In c refs -> is_entity_cls env c = true \/ In c es -> exists t, In (fst c, t) ts /\ class_table es c t.
  Proof.
    intros Ic Hc. unfold all_tables in HT. binds HT. binds HT. binds HT. binds HT. binds HT. injection HT as HT'. fold tys in E, E0, E1, E3.
    assert (v1 = xs) by congruence. subst v1. destruct Hc as [Hc|Hc].
    - assert (Ic' : In c tys) by now apply tys_in. unfold entity_tables in E. apply map_res_all2 in E.
      destruct (all2_in_l _ _ _ _ E Ic') as (p & Ip & Ep). binds Ep. injection Ep as <-. exists v1. split; [|left; auto].
      rewrite <- HT'. apply in_app_iff. auto.
    - pose proof (es_enum c Hc) as Ee. pose proof Hc as Hc'. unfold es in Hc. apply in_app_iff in Hc as [Hc|Hc].
      + destruct (enum_tables_out _ _ _ E0 Hc) as (t & It & Et). exists t. split; [|right; auto]. rewrite <- HT'. rewrite !in_app_iff. auto.
      + destruct (enum_tables_out _ _ _ E2 Hc) as (t & It & Et). exists t. split; [|right; auto]. rewrite <- HT'. rewrite !in_app_iff. auto.
  Qed.
  Lemma class_table_det c t t' : class_table es c t -> class_table es c t' -> t = t'.
  Proof.
    unfold class_table, is_entity_cls, is_enum_cls. destruct (env c); intros [[A B]|(A & B & C)] [[A' B']|(A' & B' & C')]; congruence.
  Qed.

  (** names tell the tables of classes from all others *)
  Lemma ns_in m n : ns_get o m = Ok n -> In (m, n) (o_ns o).
  Proof.
    unfold ns_get. destruct (find _ (o_ns o)) as [[k n']|] eqn:F; [|discriminate]. intros [= <-]. apply find_some in F as [I E]. simpl in E.
    apply String.eqb_eq in E. now subst.
  Qed.
  Lemma join_underscore c f r : underscore (join_name c f r).
  Proof. unfold join_name. apply underscore_app. right. simpl. auto. Qed.

  Lemma local_unique c n c' n' q q' : qualified_id_of o (fst c) n = Ok q -> qualified_id_of o (fst c') n' = Ok q' -> In c refs -> In c' refs ->
    n = snd c -> (n' = snd c' \/ exists f r, n' = join_name c' f r /\ In f (data_fields env c')) ->
    (o_qualified o = true -> fst c = fst c') -> local_id q = local_id q' -> c = c' /\ n = n'.
  Proof.
    intros Q Q' Ic Ic' -> N' M L. unfold qualified_id_of in Q, Q'. binds Q. binds Q'. apply ns_in in E, E0.
    assert (Nc : ~ underscore (snd c)) by now apply (ord_names _ _ _ HO).
    assert (FIN : fst c = fst c' -> snd c = n' -> c = c' /\ snd c = n').
    { intros A B. destruct N' as [-> |(f & r & -> & _)]; [|exfalso; apply Nc; rewrite B; apply join_underscore].
      destruct c, c'; simpl in *. subst. auto. }
    destruct (o_qualified o) eqn:OQ.
    - injection Q as <-. injection Q' as <-. simpl in L. apply FIN; auto.
    - clear M. injection Q as <-. injection Q' as <-. pose proof (ord_prefix _ _ _ HO OQ) as P.
      destruct v as [a|], v0 as [b|]; cbn [local_id] in L.
      + destruct (P _ _ E) as [_ Ua]. destruct (P _ _ E0) as [_ Ub].
        change (a ++ "__" ++ snd c)%string with (a ++ "_" ++ ("_" ++ snd c))%string in L. change (b ++ "__" ++ n')%string with (b ++ "_" ++ ("_" ++ n'))%string in L.
        apply split_underscore in L as [-> L]; auto. simpl in L. injection L as L. destruct (ord_schemas _ _ _ HO _ _ _ _ E E0 eq_refl) as [A _]. auto.
      + destruct (P _ _ E) as [_ Ua]. exfalso. destruct N' as [-> |(f & r & -> & If)].
        * assert (Nc' : ~ underscore (snd c')) by now apply (ord_names _ _ _ HO). apply Nc'. rewrite <- L. apply underscore_app. right. simpl. auto.
        * assert (Nc' : ~ underscore (snd c')) by now apply (ord_names _ _ _ HO). unfold join_name in L.
          change (a ++ "__" ++ snd c)%string with (a ++ "_" ++ ("_" ++ snd c))%string in L. apply split_underscore in L as [_ L]; auto.
          destruct (f_name f) as [|ch rest] eqn:F.
          -- apply (proj2 (ord_fields _ _ _ HO c' Ic')). rewrite <- F. now apply in_map.
          -- simpl in L. injection L as _ L. apply Nc. rewrite L. apply underscore_app. right. simpl. auto.
      + exfalso. apply Nc. rewrite L. apply underscore_app. right. simpl. auto.
      + destruct (ord_schemas _ _ _ HO _ _ _ _ E E0 eq_refl) as [A _]. auto.
  Qed.
  Lemma table_unique c t m' t' : In c refs -> In (fst c, t) ts -> class_table es c t -> class_qid o c = Ok (t_name t) -> In (m', t') ts ->
    (o_qualified o = true -> m' = fst c) -> t_key t' = t_key t -> t' = t.
  Proof.
    intros Ic It Ct Q I' M K. destruct (tables_cases _ _ I') as (c' & n' & Ic' & -> & Q' & N & _).
    destruct (local_unique c (snd c) c' n' _ _ Q Q' Ic Ic' eq_refl) as [<- <-].
    - destruct N as [[-> _]|N]; auto. 
    - intros H. symmetry. auto.
    - unfold t_key in K. auto.
    - destruct N as [[_ N]|(f & r & N & _)]; [eapply class_table_det; eauto|].
      exfalso. apply (ord_names _ _ _ HO c Ic). rewrite N. apply join_underscore.
  Qed.
  Lemma class_table_name c t : In c refs -> class_table es c t -> class_qid o c = Ok (t_name t).
  Proof.
    intros Ic [[_ T]|(I & _ & T)].
    - apply table_inv in T as (cs & ks & tq & tk & H1 & H2 & H3 & H4 & ->). exact H3.
    - eapply (enum_table_facts env o refs fuel HO); eauto.
  Qed.

  (** the tables of the catalog *)
  Lemma catalog_tables ets sts cat n t : make_catalog o ets sts (multi_of ts) = Ok cat -> In n cat -> In t (n_tables n) -> exists m, In (m, t) ts.
  Proof.
    unfold make_catalog. intros H In_ It. destruct (o_qualified o).
    - binds H. injection H as <-. apply make_in in In_. apply map_res_all2 in E. destruct (all2_in_r _ _ _ _ E In_) as ([m g] & Ig & Eg).
      binds Eg. injection Eg as <-. simpl in It. apply make_in in It. exists m. apply multi_of_in. exists g. auto.
    - injection H as <-. destruct In_ as [<-|[]]. simpl in It. apply make_in in It. apply in_concat in It as (g & Ig & It).
      apply in_map_iff in Ig as ([m g'] & <- & Ig). exists m. apply multi_of_in. exists g'. auto.
  Qed.
  Lemma group_unique (d : list (string * list table)) m g g' : NoDup (map fst d) -> In (m, g) d -> In (m, g') d -> g = g'.
  Proof.
    intros N A B. induction d as [|[k h] d IH]; [destruct A|]. simpl in N. inversion N as [|? ? N1 N2]; subst.
    destruct A as [A|A], B as [B|B]; try injection A as -> ->; try injection B as ->; try (injection B as -> ->); auto; exfalso; apply N1; [apply (in_map fst) in B|apply (in_map fst) in A]; assumption.
  Qed.
  Lemma ns_name_scope m k q : ns_get o m = Ok k -> qualified_id_of o m q = Ok (Qualified k q) \/ o_qualified o = false.
  Proof. unfold qualified_id_of. intros ->. simpl. destruct (o_qualified o); auto. Qed.

  Lemma catalog_located ets sts cat c t : make_catalog o ets sts (multi_of ts) = Ok cat -> In c refs -> In (fst c, t) ts -> class_table es c t ->
    located cat (t_name t) t.
  Proof.
    intros H Ic It Ct. pose proof (class_table_name c t Ic Ct) as Q. unfold make_catalog in H. destruct (o_qualified o) eqn:OQ.
    - binds H. injection H as <-. apply map_res_all2 in E. pose proof It as It'. apply multi_of_in in It' as (g & Ig & Itg).
      destruct (all2_in_l _ _ _ _ E Ig) as (ns & Ins & Ens). binds Ens. injection Ens as <-. simpl in E0.
      exists (make_ns (or_empty v0) (multi_get (fst c) ets) (multi_get (fst c) sts) g). split; [|split; [|split; [|reflexivity]]].
      + apply make_keep; [exact Ins|]. intros y Iy Ky. destruct (all2_in_r _ _ _ _ E Iy) as ([m' g'] & Ig' & Eg'). binds Eg'. injection Eg' as <-.
        simpl in Ky, E1. apply ns_in in E0, E1. destruct (ord_schemas _ _ _ HO _ _ _ _ E1 E0 Ky) as [-> ->]. simpl.
        now rewrite (group_unique _ _ _ _ (multi_of_keys ts) Ig' Ig).
      + unfold class_qid, qualified_id_of in Q. rewrite E0 in Q. simpl in Q. rewrite OQ in Q. injection Q as <-. reflexivity.
      + simpl. apply make_keep; [exact Itg|]. intros y Iy Ky. eapply table_unique; eauto. apply multi_of_in. exists g. eauto.
    - injection H as <-. eexists. split; [left; reflexivity|]. split; [|split; [|reflexivity]].
      + unfold class_qid, qualified_id_of in Q. binds Q. rewrite OQ in Q. injection Q as <-. reflexivity.
      + simpl. apply make_keep.
        * apply multi_of_in in It as (g & Ig & Itg). apply in_concat. exists g. split; [|exact Itg]. apply in_map_iff. exists (fst c, g). auto.
        * intros y Iy Ky. apply in_concat in Iy as (g & Ig & Iy). apply in_map_iff in Ig as ([m g'] & <- & Ig). eapply (table_unique c t m y); eauto.
          -- apply multi_of_in. exists g'. auto.
          -- rewrite OQ. discriminate.
  Qed.

  Theorem closed ets sts cat : make_catalog o ets sts (multi_of ts) = Ok cat -> foreign_keys_closed cat.
  Proof.
    intros H n t k cols q keys In_ It Ik R. destruct (catalog_tables _ _ _ _ _ H In_ It) as (m & Im).
    destruct (tables_cases _ _ Im) as (c & nm & Ic & -> & Q & _ & X). destruct (X _ _ _ _ Ik R) as (col & key & s & r & -> & -> & C & Qr & Ir & D).
    destruct (tables_exist r Ir) as (t' & It' & Ct'); [destruct D as [D|D]; tauto|].
    exists t'. pose proof (class_table_name r t' Ir Ct') as Qt. assert (q = t_name t') by congruence. subst q.
    split; [eapply catalog_located; eauto|].
    destruct D as [(A & B & (kt & n0 & K & M))|(A & B & -> & M)].
    - assert (T : dataclass_to_table env o fuel r = Ok t').
      { destruct Ct' as [[_ T]|(_ & T & _)]; [exact T|]. exfalso. unfold is_entity_cls in A. unfold is_enum_cls in T. destruct (env r); discriminate. }
      destruct (key_column env o refs HO fuel r t' kt n0 s Ir T K M) as (nm' & P1 & P2 & P3). assert (nm' = key) by congruence. subst nm'.
      split; [exact P1|]. constructor; [|constructor]. eauto.
    - assert (T : enum_table env o fuel r = Ok t').
      { destruct Ct' as [[T _]|(_ & _ & T)]; [|exact T]. exfalso. unfold is_entity_cls in T. unfold is_enum_cls in B. destruct (env r); discriminate. }
      destruct (enum_table_facts env o refs fuel HO r t' Ir T) as (_ & P1 & P2 & _). split; [exact P1|]. constructor; [|constructor]. exists s. split; [exact C|auto].
  Qed.
End Tables.

Theorem catalog_closed topo cat : dataclasses_to_catalog env o fuel topo refs = Ok cat -> foreign_keys_closed cat.
Proof.
  intros H. unfold dataclasses_to_catalog in H. binds H. binds H. binds H. pose proof E1 as T. unfold all_tables in T. binds T. binds T. binds T.
  eapply closed; eauto.
Qed.
End Close5.
