(** Proofs for C62, part 2: more classes, more objects. *)
From Verif Require Import PyStr QuoteModel ObjectDict ObjectDictProofs Types Objects SqlAst Ddl DbSpec CatSpec Compat Convert ConvertSpec ConvertProofs
  CloseSpec CloseProofs1 CloseProofs2 CloseProofs3 CloseProofs4 CloseProofs5 CloseProofs6 CreateSpec CreateProofs1 CreateProofs2 CreateProofs3 GrowSpec.
From Coq Require Import List Permutation Lia.
Open Scope string_scope.

(** the last underscore *)
Lemma split_last a : forall b x y, ~ underscore x -> ~ underscore y -> (a ++ "_" ++ x)%string = (b ++ "_" ++ y)%string -> a = b /\ x = y.
Proof.
  induction a as [|c a IH]; intros [|e b] x y Nx Ny H; simpl in *.
  - injection H as ->. split; reflexivity.
  - injection H as <- H. exfalso. apply Nx. rewrite H. apply underscore_app. right. simpl. auto.
  - injection H as -> H. exfalso. apply Ny. rewrite <- H. apply underscore_app. right. simpl. auto.
  - injection H as -> H. destruct (IH b x y Nx Ny H) as [-> ->]. auto.
Qed.

Lemma named_one {A} (g : A -> string) l x y : NoDup (map g l) -> In x l -> In y l -> g x = g y -> x = y.
Proof.
  induction l as [|z l IH]; simpl; [tauto|]. intros N Ix Iy E. inversion N as [|? ? N1 N2]; subst.
  destruct Ix as [<-|Ix], Iy as [<-|Iy]; auto; exfalso; apply N1; [rewrite E|rewrite <- E]; now apply in_map.
Qed.
Section Unique.
Context (env : cid -> classdef) (o : copts) (refs : list cid) (fuel : nat).
Hypothesis HO : ordinary env o refs.
Hypothesis HT : ordinary_types env o refs.
Hypothesis HR : creatable env o refs.
Hypothesis HP : prefixed_alike o.
Let HC : complete env refs := complete_classes env o refs HT.

Lemma join_unique c f r c' f' r' q q' : In c refs -> In c' refs -> In r refs -> In r' refs -> In f (data_fields env c) -> In f' (data_fields env c') ->
  qualified_id_of o (fst c) (join_name c f r) = Ok q -> qualified_id_of o (fst c') (join_name c' f' r') = Ok q' ->
  (o_qualified o = true -> fst c = fst c') -> local_id q = local_id q' -> c = c' /\ f = f'.
Proof.
  intros Ic Ic' Ir Ir' If If' Q Q' M L. unfold qualified_id_of in Q, Q'. binds Q. binds Q'. apply (ns_in o) in E, E0.
  assert (Nc : forall x, In x refs -> ~ underscore (snd x)) by (intros; now apply (ord_names _ _ _ HO)).
  assert (FIN : fst c = fst c' -> join_name c f r = join_name c' f' r' -> c = c' /\ f = f').
  { intros A B. unfold join_name in B. apply split_underscore in B as [B1 B]; auto. apply split_last in B as [B2 B3]; auto.
    assert (X : c = c') by (destruct c, c'; simpl in *; congruence). subst c'. split; [reflexivity|].
    apply (named_one f_name (data_fields env c)); auto. apply (ord_fields _ _ _ HO c Ic). }
  destruct (o_qualified o) eqn:OQ.
  - injection Q as <-. injection Q' as <-. simpl in L. apply FIN; auto.
  - clear M. injection Q as <-. injection Q' as <-. pose proof (ord_prefix _ _ _ HO OQ) as P. destruct v as [a|], v0 as [b|]; cbn [local_id] in L.
    + destruct (P _ _ E) as [_ Ua]. destruct (P _ _ E0) as [_ Ub].
      change (a ++ "__" ++ ?x)%string with (a ++ "_" ++ ("_" ++ x))%string in L. change (b ++ "__" ++ ?x)%string with (b ++ "_" ++ ("_" ++ x))%string in L.
      apply split_underscore in L as [-> L]; auto. simpl in L. injection L as L. destruct (ord_schemas _ _ _ HO _ _ _ _ E E0 eq_refl) as [A _]. auto.
    + exfalso. exact (HP OQ _ _ _ E0 E).
    + exfalso. exact (HP OQ _ _ _ E E0).
    + destruct (ord_schemas _ _ _ HO _ _ _ _ E E0 eq_refl) as [A _]. auto.
Qed.

Definition joined_as (c : cid) (f : dfield) (m : string) (t : table) : Prop :=
  In c refs /\ is_entity_cls env c = true /\ In f (data_fields env c) /\ m = fst c /\ join_table env o fuel c f = Ok [(m, t)] /\
  exists r, In r refs /\ qualified_id_of o (fst c) (join_name c f r) = Ok (t_name t).
Definition single (c : cid) (m : string) (t : table) : Prop :=
  In c refs /\ m = fst c /\ class_qid o c = Ok (t_name t) /\
  ((is_entity_cls env c = true /\ dataclass_to_table env o fuel c = Ok t) \/ (is_enum_cls env c = true /\ enum_table env o fuel c = Ok t)).
Lemma join_facts c f l m t : In c refs -> In f (data_fields env c) -> is_entity_cls env c = true -> join_table env o fuel c f = Ok l -> In (m, t) l -> joined_as c f m t.
Proof.
  intros Ic If Ec H I. pose proof H as H0. unfold join_table in H. destruct (relationship env o (f_type f)) as [[b item]|] eqn:R; [|injection H as <-; destruct I].
  binds H. binds H. destruct v0 as [[r rk] rs]. binds H. binds H. binds H. binds H. binds H. binds H. binds H.
  assert (Rr : mentions (f_type f) r).
  { destruct (entity_of env item) as [x|] eqn:En.
    - binds E0. binds E0. binds E0. injection E0 as <- <- <-. apply (mentions_relationship env o _ _ _ _ R). now apply (entity_mentions env).
    - destruct (o_enum o) eqn:OE; try discriminate. destruct (unwrap item) eqn:Ui; try discriminate.
      destruct (is_enum_cls env c0) eqn:Ee; [|discriminate]. binds E0. injection E0 as <- <- <-. apply (mentions_relationship env o _ _ _ _ R), mentions_unwrap. rewrite Ui. constructor. }
  injection H as H. rewrite <- H in I. destruct I as [I|[]]. injection I as Im It.
  repeat split; auto.
  - rewrite H0, <- H, <- Im, <- It. reflexivity.
  - exists r. split; [exact (proj1 (HC c f r Ic If Rr))|]. rewrite <- It. unfold join_name. simpl. rewrite <- E4. now rewrite !app_assoc_s.
Qed.

Section Tables.
Context (ts : list (string * table)).
Hypothesis HTs : all_tables env o fuel refs = Ok ts.
Lemma tables_kinds m t : In (m, t) ts -> (exists c, single c m t) \/ (exists c f, joined_as c f m t).
Proof.
  intros I. pose proof HTs as H. unfold all_tables in H. binds H. binds H. binds H. binds H. binds H. injection H as H'. rewrite <- H' in I.
  repeat (apply in_app_iff in I as [I|I]).
  - left. unfold entity_tables in E. apply map_res_all2 in E. destruct (all2_in_r _ _ _ _ E I) as (c & Ic & Ec). binds Ec. injection Ec as <- <-.
    apply (tys_in env refs) in Ic as [Ic En]. exists c. split; [exact Ic|]. split; [reflexivity|]. split; [|left; auto].
    pose proof E4 as T. apply table_inv in T as (cs & ks & tq & tk & H1 & H2 & H3 & H4 & HH). rewrite HH. exact H3.
  - left. destruct (enum_tables_in env o fuel _ _ _ _ E0 I) as (e & Ie & -> & Ee).
    assert (Ies : In e (regular_enums env o (table_types env refs) ++ v1)) by (apply in_app_iff; auto).
    pose proof (es_refs env o refs HC v1 E1 e Ies) as Ir. pose proof (es_enum env o refs v1 E1 e Ies) as En.
    exists e. split; [exact Ir|]. split; [reflexivity|]. split; [|right; auto]. eapply (enum_table_facts env o refs fuel HO); eauto.
  - left. destruct (enum_tables_in env o fuel _ _ _ _ E2 I) as (e & Ie & -> & Ee).
    assert (Ies : In e (regular_enums env o (table_types env refs) ++ v1)) by (apply in_app_iff; auto).
    pose proof (es_refs env o refs HC v1 E1 e Ies) as Ir. pose proof (es_enum env o refs v1 E1 e Ies) as En.
    exists e. split; [exact Ir|]. split; [reflexivity|]. split; [|right; auto]. eapply (enum_table_facts env o refs fuel HO); eauto.
  - right. unfold join_tables in E3. binds E3. injection E3 as <-. destruct (in_concat_ok _ _ _ _ E4 I) as (c & l & Ic & El & Il).
    binds El. injection El as <-. destruct (in_concat_ok _ _ _ _ E3 Il) as (f & l' & If & Ef & Il').
    apply (tys_in env refs) in Ic as [Ic En]. exists c, f. eapply join_facts; eauto.
Qed.
Lemma table_single m m' t t' : In (m, t) ts -> In (m', t') ts -> (o_qualified o = true -> m = m') -> t_key t = t_key t' -> (m, t) = (m', t').
Proof.
  intros I I' M K. unfold t_key in K.
  destruct (tables_kinds m t I) as [(c & Ic & Em & Q & D)|(c & f & Ic & Ec & If & Em & J & (r & Ir & Q))];
  destruct (tables_kinds m' t' I') as [(c' & Ic' & Em' & Q' & D')|(c' & f' & Ic' & Ec' & If' & Em' & J' & (r' & Ir' & Q'))].
  - destruct (local_unique env o refs HO c (snd c) c' (snd c') _ _ Q Q' Ic Ic' eq_refl (or_introl eq_refl)) as [<- _]; [intros H; rewrite <- Em, <- Em'; auto|exact K|].
    subst m m'. f_equal. destruct D as [[A B]|[A B]], D' as [[A' B']|[A' B']]; try congruence; exfalso; unfold is_entity_cls, is_enum_cls in *; destruct (env c); discriminate.
  - exfalso. destruct (local_unique env o refs HO c (snd c) c' (join_name c' f' r') _ _ Q Q' Ic Ic' eq_refl) as [_ X]; [right; eauto|intros H; rewrite <- Em, <- Em'; auto|exact K|].
    apply (ord_names _ _ _ HO c Ic). rewrite X. apply join_underscore.
  - exfalso. destruct (local_unique env o refs HO c' (snd c') c (join_name c f r) _ _ Q' Q Ic' Ic eq_refl) as [_ X]; [right; eauto|intros H; rewrite <- Em, <- Em'; symmetry; auto|now symmetry|].
    apply (ord_names _ _ _ HO c' Ic'). rewrite X. apply join_underscore.
  - destruct (join_unique c f r c' f' r' _ _ Ic Ic' Ir Ir' If If' Q Q') as [<- <-]; [intros H; rewrite <- Em, <- Em'; auto|exact K|]. congruence.
Qed.
End Tables.

Section Types.
Context (topo : list cid -> list cid) (ets : list (string * enumt)) (sts : list (string * structt)).
Hypothesis TP : forall l, Permutation (topo l) l.
Hypothesis HE : enum_types env o refs = Ok ets.
Hypothesis HS : struct_types env o fuel topo refs = Ok sts.
Lemma enum_single m e e' : In (m, e) ets -> In (m, e') ets -> e_key e = e_key e' -> e = e'.
Proof.
  intros I I' K. destruct (enum_facts env o refs HT ets HE _ _ I) as (c & vs & Ic & Kc & M & OE & Q & V). destruct (enum_facts env o refs HT ets HE _ _ I') as (c' & vs' & Ic' & Kc' & M' & _ & Q' & V').
  destruct (local_unique env o refs HO c (snd c) c' (snd c') _ _ Q Q' Ic Ic' eq_refl (or_introl eq_refl)) as [<- _]; [congruence|exact K|].
  destruct e, e'. simpl in *. congruence.
Qed.
Lemma struct_single m u u' : In (m, u) sts -> In (m, u') sts -> s_key u = s_key u' -> u = u'.
Proof.
  intros I I' K. destruct (struct_facts env o refs fuel topo sts TP HS _ _ I) as (c & Ic & Kc & M & OE & Q & V & _). destruct (struct_facts env o refs fuel topo sts TP HS _ _ I') as (c' & Ic' & Kc' & M' & _ & Q' & V' & _).
  destruct (local_unique env o refs HO c (snd c) c' (snd c') _ _ Q Q' Ic Ic' eq_refl (or_introl eq_refl)) as [<- _]; [congruence|exact K|].
  congruence.
Qed.
End Types.
End Unique.

(** objects of fewer classes *)
Section Fewer.
Context (env : cid -> classdef) (o : copts) (r1 r2 : list cid) (fuel : nat).
Hypothesis HI : incl r1 r2.
Lemma enums_more ets1 ets2 : enum_types env o r1 = Ok ets1 -> enum_types env o r2 = Ok ets2 -> incl ets1 ets2.
Proof.
  unfold enum_types. destruct (o_enum o); try (intros [= <-] [= <-] x []). intros H1 H2. binds H1. binds H2. injection H1 as <-. injection H2 as <-.
  intros x I. destruct (in_concat_ok _ _ _ _ E I) as (c & l & Ic & El & Il). apply map_res_all2 in E0.
  assert (Ic' : In c (sort_names (filter (is_enum_cls env) r2))) by (rewrite sort_names_in in *; apply filter_In in Ic as [A B]; apply filter_In; auto).
  destruct (all2_in_l _ _ _ _ E0 Ic') as (l' & Il' & El'). apply in_concat. exists l'. split; [exact Il'|]. congruence.
Qed.
Lemma structs_more topo1 topo2 sts1 sts2 : (forall l, Permutation (topo1 l) l) -> (forall l, Permutation (topo2 l) l) ->
  struct_types env o fuel topo1 r1 = Ok sts1 -> struct_types env o fuel topo2 r2 = Ok sts2 -> incl sts1 sts2.
Proof.
  intros T1 T2. unfold struct_types. destruct (o_struct o); try (intros [= <-] [= <-] x []). intros H1 H2 x I. apply map_res_all2 in H1, H2.
  destruct (all2_in_r _ _ _ _ H1 I) as (c & Ic & Ec). apply (Permutation_in _ (T1 _)) in Ic.
  assert (Ic' : In c (topo2 (sort_names (filter (is_struct_cls env) r2)))) by (apply (Permutation_in _ (Permutation_sym (T2 _))); rewrite sort_names_in in *; apply filter_In in Ic as [A B]; apply filter_In; auto).
  destruct (all2_in_l _ _ _ _ H2 Ic') as (y & Iy & Ey). congruence.
Qed.
Lemma types_more : incl (table_types env r1) (table_types env r2).
Proof. intros c. unfold table_types. rewrite !sort_names_in, !filter_In. intros [A B]. auto. Qed.
Lemma regular_more : incl (regular_enums env o (table_types env r1)) (regular_enums env o (table_types env r2)).
Proof.
  unfold regular_enums. destruct (o_enum o); try (intros x []). intros x. unfold as_set. rewrite !nodup_In, !in_flat_map. intros (c & Ic & I). exists c. split; [now apply types_more|exact I].
Qed.
Lemma extensible_more l1 l2 : extensible_enums env (table_types env r1) = Ok l1 -> extensible_enums env (table_types env r2) = Ok l2 -> incl l1 l2.
Proof.
  unfold extensible_enums. intros H1 H2. binds H1. binds H2. injection H1 as <-. injection H2 as <-. intros x. unfold as_set. rewrite !nodup_In. intros I.
  destruct (in_concat_ok _ _ _ _ E I) as (c & l & Ic & El & Il). apply map_res_all2 in E0. destruct (all2_in_l _ _ _ _ E0 (types_more c Ic)) as (l' & Il' & El').
  apply in_concat. exists l'. split; [exact Il'|]. congruence.
Qed.
Lemma enum_tables_more l1 l2 t1 t2 : incl l1 l2 -> enum_tables env o fuel l1 = Ok t1 -> enum_tables env o fuel l2 = Ok t2 -> incl t1 t2.
Proof.
  intros L H1 H2 [m t] I. destruct (enum_tables_in env o fuel _ _ _ _ H1 I) as (e & Ie & -> & Ee). destruct (enum_tables_out env o fuel _ _ _ H2 (L e Ie)) as (t' & I' & Ee'). congruence.
Qed.
Lemma tables_more ts1 ts2 : all_tables env o fuel r1 = Ok ts1 -> all_tables env o fuel r2 = Ok ts2 -> incl ts1 ts2.
Proof.
  unfold all_tables. intros H1 H2. binds H1. binds H1. binds H1. binds H1. binds H1. binds H2. binds H2. binds H2. binds H2. binds H2.
  injection H1 as <-. injection H2 as <-. apply incl_app; [|apply incl_app; [|apply incl_app]].
  - apply incl_appl. intros x I. unfold entity_tables in *. 
    match goal with A : map_res _ (table_types env r1) = Ok v, B : map_res _ (table_types env r2) = Ok _ |- _ => apply map_res_all2 in A, B;
      destruct (all2_in_r _ _ _ _ A I) as (c & Ic & Ec); destruct (all2_in_l _ _ _ _ B (types_more c Ic)) as (y & Iy & Ey) end. congruence.
  - apply incl_appr, incl_appl. match goal with A : enum_tables env o fuel (regular_enums env o (table_types env r1)) = _, B : enum_tables env o fuel (regular_enums env o (table_types env r2)) = _ |- _ => exact (enum_tables_more _ _ _ _ regular_more A B) end.
  - apply incl_appr, incl_appr, incl_appl.
    match goal with A : extensible_enums env (table_types env r1) = Ok ?x, B : extensible_enums env (table_types env r2) = Ok ?y, A' : enum_tables env o fuel ?x = _, B' : enum_tables env o fuel ?y = _ |- _ => exact (enum_tables_more _ _ _ _ (extensible_more _ _ A B) A' B') end.
  - apply incl_appr, incl_appr, incl_appr.
    match goal with A : join_tables env o fuel (table_types env r1) = Ok ?x, B : join_tables env o fuel (table_types env r2) = Ok ?y |- incl ?x ?y => 
      unfold join_tables in A, B; binds A; binds B; injection A as <-; injection B as <- end.
    intros x I. match goal with A : map_res _ (table_types env r1) = Ok ?p, B : map_res _ (table_types env r2) = Ok ?q |- In x (concat ?q) => 
      destruct (in_concat_ok _ _ _ _ A I) as (c & l & Ic & El & Il); apply map_res_all2 in B; destruct (all2_in_l _ _ _ _ B (types_more c Ic)) as (l' & Il' & El') end.
    apply in_concat. exists l'. split; [exact Il'|]. congruence.
Qed.
End Fewer.
