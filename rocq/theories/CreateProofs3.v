(** Proofs about creatable catalogs, part 3: the objects of a namespace. *)
From Verif Require Import PyStr QuoteModel ObjectDict ObjectDictProofs Types Objects Compat Convert ConvertSpec ConvertProofs CloseSpec
  CloseProofs1 CloseProofs2 CloseProofs3 CloseProofs4 CloseProofs5 CloseProofs6 CreateSpec CreateProofs1 CreateProofs2.
From Coq Require Import List Permutation Lia.
Open Scope string_scope.

(** ** Choices of types *)
Definition wide (l : list pytype) : Prop := ((2 < length l)%nat \/ ~ In YNone l) /\ exists x, In x l /\ x <> YNone.
Definition choice (t : pytype) : Prop := exists l, chooses t l /\ wide l.
Lemma wide_not l u : wide l -> ~ Permutation l [u; YNone].
Proof.
  intros [[L|L] _] P; [apply Permutation_length in P; simpl in P; lia|]. apply L. apply (Permutation_in YNone (Permutation_sym P)). simpl. auto.
Qed.
Lemma choice_unwrap t : choice (unwrap t) -> choice t.
Proof. destruct t; simpl; auto. intros (w & C & W). exists w. split; [now constructor|exact W]. Qed.
Lemma choice_mk_ann t ms : choice (mk_ann t ms) -> choice t.
Proof.
  unfold mk_ann. destruct ms; auto. destruct t; auto; intros (w & C & W); inversion C; subst; exists w; split; auto. now constructor.
Qed.
Lemma choice_member l t : In t l -> choice t -> choice (YUnion l).
Proof. intros I (m & C & W). exists m. split; [econstructor; eauto|exact W]. Qed.
Lemma none_dec x : is_none x = true <-> x = YNone.
Proof. destruct x; simpl; split; congruence. Qed.
Lemma no_none l : existsb is_none l = false -> ~ In YNone l.
Proof. intros H I. assert (X : existsb is_none l = true) by (apply existsb_exists; exists YNone; auto). congruence. Qed.
Lemma union_wide t l : is_union t = true -> unwrap t = YUnion l -> (2 < length l)%nat \/ ~ In YNone l.
Proof.
  unfold is_union. intros H E. rewrite E in H. apply Bool.orb_true_iff in H as [H|H]; [left; now apply Nat.ltb_lt in H|right].
  apply no_none. now apply Bool.negb_true_iff.
Qed.
Lemma shorter {A} (g : A -> bool) l : (length (filter g l) <= length l)%nat.
Proof. induction l as [|x l IH]; simpl; [lia|]. destruct (g x); simpl; lia. Qed.
Lemma choice_optional t : choice (unwrap_optional t) -> choice t.
Proof.
  unfold unwrap_optional. destruct (unwrap t) as [| | | | | | | | | | | | | | | | | | | |l| | |] eqn:E; auto. intros H. apply choice_mk_ann in H.
  apply choice_unwrap. rewrite E. set (g := fun x => negb (is_none x)) in *.
  assert (K : forall x, In x (filter g l) -> In x l /\ x <> YNone).
  { intros x I. apply filter_In in I as [I G]. split; [exact I|]. intros ->. discriminate. }
  unfold mk_union in H. destruct (filter g l) as [|x [|y r]] eqn:F.
  - destruct H as (m & C & W & x & I & _). inversion C; subst; simpl in *; tauto.
  - apply (choice_member l x); [apply K; now left|exact H].
  - destruct H as (m & C & W). inversion C as [l' | |l' u m' I C']; subst.
    + exists l. split; [constructor|]. split; [|exists x; apply K; now left].
      destruct (existsb is_none l) eqn:N; [left|right; now apply no_none].
      apply existsb_exists in N as (z & Iz & Nz). apply in_split in Iz as (a & b & ->). unfold g in F. rewrite filter_app in F. cbn [filter] in F.
      rewrite Nz in F. cbn [negb] in F. rewrite <- filter_app in F.
      pose proof (shorter (fun x => negb (is_none x)) (a ++ b)) as L. rewrite F in L. rewrite app_length in *. simpl in *. lia.
    + apply (choice_member l u); [now apply K|]. exists m. auto.
Qed.
Lemma choice_default t : choice (drop_default t) -> choice t.
Proof.
  unfold drop_default. destruct (is_union t && _) eqn:B; auto. apply Bool.andb_true_iff in B as [B _]. intros H.
  unfold union_members in H. destruct (unwrap t) as [| | | | | | | | | | | | | | | | | | | |l| | |] eqn:E; try (unfold is_union in B; rewrite E in B; discriminate).
  apply choice_unwrap. rewrite E. pose proof (union_wide t l B E) as W. unfold mk_union in H.
  destruct (remove_first l) as [|x [|y r]] eqn:F.
  - destruct H as (m & C & _ & x & I & _). inversion C; subst; simpl in *; tauto.
  - apply (choice_member l x); [apply remove_first_in; rewrite F; now left|exact H].
  - destruct H as (m & C & V & z & Iz & Nz). inversion C as [l' | |l' u m' I C']; subst.
    + exists l. split; [constructor|]. split; [exact W|]. exists z. split; [apply remove_first_in; now rewrite F|exact Nz].
    + apply (choice_member l u); [apply remove_first_in; now rewrite F|]. exists m. split; [exact C'|]. split; eauto.
Qed.
Lemma choice_field t : choice (field_type (field_properties t)) -> choice t.
Proof.
  unfold field_type, field_properties. simpl. intros H. apply choice_mk_ann in H. apply choice_unwrap in H.
  destruct (is_optional _); [apply choice_optional in H|]; apply choice_default in H; now apply choice_unwrap.
Qed.
Lemma choice_evaluate t : choice (evaluate t) -> choice t.
Proof. destruct t; simpl; auto. intros (w & C & _). inversion C. Qed.
Lemma choice_union t x : is_union t = true -> In x (union_members t) -> x <> YNone -> choice t.
Proof.
  intros U I N. apply choice_unwrap. unfold union_members in I. destruct (unwrap t) as [| | | | | | | | | | | | | | | | | | | |l| | |] eqn:E; try destruct I.
  exists l. split; [constructor|]. split; [now apply (union_wide t)|eauto].
Qed.

Lemma nodup_app {A} (a b : list A) : NoDup a -> NoDup b -> (forall x, In x a -> ~ In x b) -> NoDup (a ++ b).
Proof.
  induction a as [|x a IH]; simpl; intros Na Nb D; [exact Nb|]. inversion Na; subst. constructor.
  - intros I. apply in_app_iff in I as [I|I]; [auto|]. exact (D x (or_introl eq_refl) I).
  - apply IH; auto.
Qed.
(** ** Groups *)
Lemma get_add {A} (m k : string) (x : A) d : multi_get m (multi_add k x d) = if String.eqb k m then (multi_get m d ++ [x])%list else multi_get m d.
Proof.
  induction d as [|[j l] d IH]; cbn [multi_add].
  - unfold multi_get. simpl. destruct (String.eqb k m); reflexivity.
  - destruct (String.eqb j k) eqn:JK.
    + apply String.eqb_eq in JK. subst j. unfold multi_get. simpl. destruct (String.eqb k m); reflexivity.
    + unfold multi_get in *. cbn [find fst]. destruct (String.eqb j m) eqn:JM; [|exact IH]. apply String.eqb_eq in JM. subst j. rewrite String.eqb_sym in JK. now rewrite JK.
Qed.
Lemma get_of {A} m (l : list (string * A)) : multi_get m (multi_of l) = map snd (filter (fun p => String.eqb (fst p) m) l).
Proof.
  unfold multi_of. change (map snd (filter (fun p => String.eqb (fst p) m) l)) with (multi_get m [] ++ map snd (filter (fun p : string * A => String.eqb (fst p) m) l))%list.
  generalize (@nil (string * list A)). induction l as [|[k x] l IH]; intros d; cbn [fold_left filter map fst snd].
  - now rewrite app_nil_r.
  - rewrite IH, get_add. destruct (String.eqb k m); [|reflexivity]. cbn [map snd]. now rewrite <- app_assoc.
Qed.

Section Create3.
Context (env : cid -> classdef) (o : copts) (refs : list cid) (fuel : nat).
Hypothesis HO : ordinary env o refs.
Hypothesis HT : ordinary_types env o refs.
Hypothesis HR : creatable env o refs.
Context (topo : list cid -> list cid) (ets : list (string * enumt)) (sts : list (string * structt)) (ts : list (string * table)).
Hypothesis TP : forall l, Permutation (topo l) l.
Hypothesis TD : forall l, (forall c, In c l <-> In c refs /\ structure env c) -> dependencies_first env (topo l).
Hypothesis HE : enum_types env o refs = Ok ets.
Hypothesis HS : struct_types env o fuel topo refs = Ok sts.
Hypothesis HTs : all_tables env o fuel refs = Ok ts.

Lemma enum_facts m e : In (m, e) ets -> exists c vs, In c refs /\ env c = KEnum vs /\ m = fst c /\ o_enum o = EmType /\
  class_qid o c = Ok (e_name e) /\ e_values e = map ev_text vs.
Proof.
  intros I. unfold enum_types in HE. destruct (o_enum o) eqn:OE; try (injection HE as <-; destruct I). binds HE. injection HE as HE'. rewrite <- HE' in I.
  destruct (in_concat_ok _ _ _ _ E I) as (c & l & Ic & El & Il). rewrite sort_names_in in Ic. apply filter_In in Ic as [Ic _].
  destruct (env c) as [|vs|] eqn:K; try (injection El as <-; destruct Il).
  destruct (Nat.ltb _ 2); [injection El as <-; destruct Il|]. binds El. injection El as <-. destruct Il as [Il|[]]. injection Il as <- <-.
  exists c, vs. repeat split; auto. unfold class_qid, qualified_id_of. rewrite E0. cbn [bind]. now rewrite (ot_qualified _ _ _ HT (or_introl OE)).
Qed.
Lemma struct_facts m u : In (m, u) sts -> exists c, In c refs /\ is_struct_cls env c = true /\ m = fst c /\ o_struct o = SmType /\
  class_qid o c = Ok (s_name u) /\ dataclass_to_struct env o fuel c = Ok u /\ NoDup (map m_name (s_members u)).
Proof.
  intros I. unfold struct_types in HS. destruct (o_struct o) eqn:OS; try (injection HS as <-; destruct I). apply map_res_all2 in HS.
  destruct (all2_in_r _ _ _ _ HS I) as (c & Ic & Ec). apply (Permutation_in _ (TP _)) in Ic. rewrite sort_names_in in Ic. apply filter_In in Ic as [Ic St].
  binds Ec. injection Ec as <- <-. exists c. repeat split; auto; unfold dataclass_to_struct in E; destruct (env c); try discriminate; binds E; binds E; injection E as <-; [assumption|].
  cbn [s_members]. apply made_nodup.
Qed.
Lemma table_facts m t : In (m, t) ts -> exists c n, In c refs /\ m = fst c /\ qualified_id_of o (fst c) n = Ok (t_name t) /\
  (n = snd c /\ (is_entity_cls env c = true \/ (is_enum_cls env c = true /\ o_enum o <> EmType)) \/ (exists f r, n = join_name c f r /\ In f (data_fields env c))).
Proof.
  intros I. pose proof (complete_classes env o refs HT) as HC. pose proof HTs as X. unfold all_tables in X. binds X. binds X. binds X. clear X.
  destruct (tables_cases env o refs fuel HO HC ts v1 E1 HTs m t I) as (c & n & Ic & M & Q & D & _). exists c, n. repeat split; auto.
  destruct D as [[N [[D _]|(D & D2 & _)]]|D]; auto. left. split; [exact N|]. right. split; [exact D2|]. intros OE.
  apply in_app_iff in D as [D|D].
  - apply (regular_in env o refs) in D as [D _]. congruence.
  - unfold extensible_enums in E1. binds E1. injection E1 as <-. unfold as_set in D. apply nodup_In in D.
    destruct (in_concat_ok _ _ _ _ E2 D) as (c' & l & Ic' & El & Il). apply map_res_all2 in El.
    destruct (all2_in_r _ _ _ _ El Il) as (f & If & Ef). apply filter_In in If as [If Xf]. apply (tys_in env refs) in Ic' as [Ic' _].
    unfold is_extensible in Xf. apply Bool.andb_true_iff in Xf as [Xf _].
    unfold extensible_enum in Ef. destruct (find _ _) as [u|] eqn:Fu; [|discriminate]. apply find_some in Fu as [Iu Qu].
    destruct (is_type_enum_inv env u Qu) as (e' & Ue & Ee). rewrite Ue in Ef. injection Ef as ->.
    apply in_map_iff in Iu as (y & <- & Iy).
    assert (W : choice (f_type f)).
    { apply choice_field, choice_evaluate. apply (choice_union _ y); auto. intros ->. discriminate. }
    assert (Mn : mentions (f_type f) c).
    { apply (required_mentions env). apply (mentions_members env _ y _ Iy), mentions_evaluate, mentions_unwrap. rewrite Ue. constructor. }
    destruct W as (l' & Cl & Wl). destruct (cr_choices _ _ _ HR c' f c l' OE Ic' If Mn) as (u & P); auto.
    + unfold is_enum_cls in Ee. unfold enumeration. destruct (env c); try discriminate. eauto.
    + exact (wide_not _ _ Wl P).
Qed.

Lemma same_name c n c' n' q q' : In c refs -> class_qid o c = Ok q -> In c' refs -> qualified_id_of o (fst c') n' = Ok q' ->
  (n' = snd c' \/ exists f r, n' = join_name c' f r /\ In f (data_fields env c')) -> (o_qualified o = true -> fst c = fst c') -> local_id q = local_id q' ->
  n = snd c -> c = c' /\ n' = snd c'.
Proof.
  intros Ic Q Ic' Q' N F L ->. destruct (local_unique env o refs HO c (snd c) c' n' q q' Q Q' Ic Ic' eq_refl N F L) as [<- <-]. auto.
Qed.

(** a module and its part of the catalog *)
Definition part (m : string) (n : namespace) : Prop :=
  exists k g, ns_get o m = Ok k /\ In (m, g) (multi_of ts) /\
              n = make_ns (or_empty k) (multi_get m (multi_of ets)) (multi_get m (multi_of sts)) g.
Lemma parts cat n : make_catalog o (multi_of ets) (multi_of sts) (multi_of ts) = Ok cat -> In n cat ->
  (o_qualified o = true /\ exists m, part m n) \/ (o_qualified o = false /\ ets = [] /\ sts = [] /\ cat = [n] /\ n = make_ns "" [] [] (concat (map snd (multi_of ts)))).
Proof.
  unfold make_catalog. intros H In_. destruct (o_qualified o) eqn:OQ.
  - left. split; [reflexivity|]. binds H. injection H as <-. apply make_in in In_. apply map_res_all2 in E. destruct (all2_in_r _ _ _ _ E In_) as ([m g] & Ig & Eg).
    binds Eg. injection Eg as <-. exists m, v0, g. auto.
  - right. assert (A : ets = []).
    { unfold enum_types in HE. destruct (o_enum o) eqn:OE; try (injection HE as <-; reflexivity).
      pose proof (ot_qualified _ _ _ HT (or_introl OE)). congruence. }
    assert (B : sts = []).
    { unfold struct_types in HS. destruct (o_struct o) eqn:OS; try (injection HS as <-; reflexivity).
      pose proof (ot_qualified _ _ _ HT (or_intror OS)). congruence. }
    injection H as <-. destruct In_ as [<-|[]]. split; [reflexivity|]. split; [exact A|]. split; [exact B|]. split; [reflexivity|]. now rewrite A, B.
Qed.
Lemma group_in m g t : In (m, g) (multi_of ts) -> In t g -> In (m, t) ts.
Proof. intros I It. apply multi_of_in. exists g. auto. Qed.
Lemma concat_in t : In t (concat (map snd (multi_of ts))) -> exists m, In (m, t) ts.
Proof. intros I. apply in_concat in I as (g & Ig & I). apply in_map_iff in Ig as ([m g'] & <- & Ig). exists m. now apply (group_in m g'). Qed.

(** where the objects come from *)
Lemma part_enum m n e : part m n -> In e (n_enums n) -> In (m, e) ets.
Proof. intros (k & g & K & I & ->) Ie. cbn [n_enums make_ns] in Ie. now apply make_in, multi_get_in, multi_of_in in Ie. Qed.
Lemma part_struct m n u : part m n -> In u (n_structs n) -> In (m, u) sts.
Proof. intros (k & g & K & I & ->) Ie. cbn [n_structs make_ns] in Ie. now apply make_in, multi_get_in, multi_of_in in Ie. Qed.
Lemma part_table m n t : part m n -> In t (n_tables n) -> In (m, t) ts.
Proof. intros (k & g & K & I & ->) Ie. cbn [n_tables make_ns] in Ie. apply make_in in Ie. now apply (group_in m g). Qed.

(** names *)
Lemma qid_scope m n q : o_qualified o = true -> qualified_id_of o m n = Ok q -> exists k, ns_get o m = Ok k /\ q = Qualified k n.
Proof. unfold qualified_id_of. intros OQ H. binds H. rewrite OQ in H. injection H as <-. eauto. Qed.
Lemma names_nodup m n : part m n -> o_qualified o = true -> NoDup (map local_id (map e_name (n_enums n) ++ map s_name (n_structs n) ++ map t_name (n_tables n))).
Proof.
  intros P OQ. rewrite !map_app, !map_map.
  assert (A : NoDup (map (fun x => local_id (e_name x)) (n_enums n))) by (destruct P as (k & g & _ & _ & ->); apply (made_nodup e_key)).
  assert (B : NoDup (map (fun x => local_id (s_name x)) (n_structs n))) by (destruct P as (k & g & _ & _ & ->); apply (made_nodup s_key)).
  assert (C : NoDup (map (fun x => local_id (t_name x)) (n_tables n))) by (destruct P as (k & g & _ & _ & ->); apply (made_nodup t_key)).
  assert (AB : forall e u, In e (n_enums n) -> In u (n_structs n) -> local_id (e_name e) <> local_id (s_name u)).
  { intros e u Ie Iu L. destruct (enum_facts _ _ (part_enum _ _ _ P Ie)) as (c & vs & Ic & K & M & OE & Q & _).
    destruct (struct_facts _ _ (part_struct _ _ _ P Iu)) as (c' & Ic' & St & M' & OS & Q' & _).
    destruct (same_name c (snd c) c' (snd c') _ _ Ic Q Ic' Q' (or_introl eq_refl)) as [<- _]; auto; [congruence|]. unfold is_struct_cls in St. rewrite K in St. discriminate. }
  assert (AC : forall e t, In e (n_enums n) -> In t (n_tables n) -> local_id (e_name e) <> local_id (t_name t)).
  { intros e u Ie Iu L. destruct (enum_facts _ _ (part_enum _ _ _ P Ie)) as (c & vs & Ic & K & M & OE & Q & _).
    destruct (table_facts _ _ (part_table _ _ _ P Iu)) as (c' & n' & Ic' & M' & Q' & D).
    destruct (same_name c (snd c) c' n' _ _ Ic Q Ic' Q') as [<- N]; auto; [tauto|congruence|].
    destruct D as [[_ [D|[_ D]]]|(f & r & D & _)].
    - unfold is_entity_cls in D. rewrite K in D. discriminate.
    - congruence.
    - apply (ord_names _ _ _ HO c Ic). rewrite <- N, D. apply (join_underscore c f r). }
  assert (BC : forall u t, In u (n_structs n) -> In t (n_tables n) -> local_id (s_name u) <> local_id (t_name t)).
  { intros e u Ie Iu L. destruct (struct_facts _ _ (part_struct _ _ _ P Ie)) as (c & Ic & St & M & OS & Q & _).
    destruct (table_facts _ _ (part_table _ _ _ P Iu)) as (c' & n' & Ic' & M' & Q' & D).
    destruct (same_name c (snd c) c' n' _ _ Ic Q Ic' Q') as [<- N]; auto; [tauto|congruence|].
    unfold is_struct_cls in St. destruct D as [[_ [D|[D _]]]|(f & r & D & _)].
    - unfold is_entity_cls in D. destruct (env c); try discriminate. rewrite D in St. discriminate.
    - unfold is_enum_cls in D. destruct (env c); discriminate.
    - apply (ord_names _ _ _ HO c Ic). rewrite <- N, D. apply (join_underscore c f r). }
  apply nodup_app; [exact A|apply nodup_app; [exact B|exact C|]|].
  - intros x I J. apply in_map_iff in I as (u & <- & I). apply in_map_iff in J as (t & J & It). exact (BC u t I It (eq_sym J)).
  - intros x I J. apply in_map_iff in I as (u & <- & I). apply in_app_iff in J as [J|J]; apply in_map_iff in J as (t & J & It); [exact (AB u t I It (eq_sym J))|exact (AC u t I It (eq_sym J))].
Qed.
Lemma part_scope m n q : part m n -> o_qualified o = true -> In q (map e_name (n_enums n) ++ map s_name (n_structs n) ++ map t_name (n_tables n)) ->
  exists k, n_name n = or_empty k /\ ns_get o m = Ok k /\ scope_id q = k.
Proof.
  intros P OQ I. assert (X : exists nm, qualified_id_of o m nm = Ok q).
  { rewrite !in_app_iff in I. destruct I as [I|[I|I]]; apply in_map_iff in I as (x & <- & I).
    - destruct (enum_facts _ _ (part_enum _ _ _ P I)) as (c & vs & Ic & K & -> & OE & Q & _). unfold class_qid in Q. eauto.
    - destruct (struct_facts _ _ (part_struct _ _ _ P I)) as (c & Ic & K & -> & OE & Q & _). unfold class_qid in Q. eauto.
    - destruct (table_facts _ _ (part_table _ _ _ P I)) as (c & n' & Ic & -> & Q & _). eauto. }
  destruct X as (nm & X). destruct (qid_scope _ _ _ OQ X) as (k & K & ->). exists k. destruct P as (k' & g & K' & _ & ->). assert (k' = k) by congruence. subst k'. auto.
Qed.

(** the order of structures *)
Definition before {A} (l : list A) (x y : A) : Prop := exists l1 l2, l = (l1 ++ y :: l2)%list /\ In x l1.
Lemma all2_split {A B} (P : A -> B -> Prop) a x b l : Forall2 P (a ++ x :: b) l -> exists l1 y l2, l = (l1 ++ y :: l2)%list /\ Forall2 P a l1 /\ P x y.
Proof. intros H. apply Forall2_app_inv_l in H as (l1 & l2 & H1 & H2 & ->). inversion H2; subst. eauto 8. Qed.
Lemma structs_distinct L l m : NoDup L -> Forall2 (fun c (p : string * structt) => fst p = fst c /\ s_key (snd p) = snd c) L l ->
  NoDup (map s_key (map snd (filter (fun p => String.eqb (fst p) m) l))).
Proof.
  intros N H. induction H as [|c p L l [F K] H IH]; cbn [filter map]; [constructor|]. inversion N as [|? ? N1 N2]; subst. destruct (String.eqb (fst p) m) eqn:M; [|auto].
  cbn [map]. constructor; [|auto]. intros I. apply N1. rewrite map_map in I. apply in_map_iff in I as (p' & K' & I). apply filter_In in I as [I M'].
  destruct (all2_in_r _ _ _ _ H I) as (c' & Ic & F' & K2). apply String.eqb_eq in M, M'. assert (c' = c); [|subst; exact Ic].
  destruct c, c'; simpl in *. congruence.
Qed.
Lemma split_unique {A} (x : A) a : forall b a' b', NoDup (a ++ x :: b) -> (a ++ x :: b)%list = (a' ++ x :: b')%list -> a = a'.
Proof.
  induction a as [|z a IH]; intros b a' b' N E; destruct a' as [|w a']; simpl in *; auto.
  - injection E as <- E. exfalso. inversion N as [|? ? N1 _]; subst. apply N1. apply in_app_iff. simpl. auto.
  - injection E as -> E. exfalso. inversion N as [|? ? N1 _]; subst. apply N1. apply in_app_iff. simpl. auto.
  - injection E as <- E. f_equal. inversion N; subst. eapply IH; eauto.
Qed.
Lemma all2_weaken {A B} (P Q : A -> B -> Prop) l r : (forall x y, P x y -> Q x y) -> Forall2 P l r -> Forall2 Q l r.
Proof. intros H. induction 1; constructor; auto. Qed.
Lemma filter_split {A} (g : A -> bool) l1 y l2 x : g x = true -> g y = true -> In x l1 ->
  exists a b, filter g (l1 ++ y :: l2) = (a ++ y :: b)%list /\ In x a.
Proof. intros X Y I. exists (filter g l1), (filter g l2). rewrite filter_app. simpl. rewrite Y. split; [reflexivity|]. now apply filter_In. Qed.
Lemma struct_order m n l1 x l2 y c d f : part m n -> n_structs n = (l1 ++ x :: l2)%list -> In y (n_structs n) ->
  In c refs -> dataclass_to_struct env o fuel c = Ok x -> is_struct_cls env c = true -> fst c = m ->
  In d refs -> dataclass_to_struct env o fuel d = Ok y -> is_struct_cls env d = true -> fst d = m -> o_struct o = SmType ->
  In f (data_fields env c) -> mentions (f_type f) d -> In y l1.
Proof.
  intros (k & g & K & _ & ->) E Iy Ic Cx Cs Cm Id Dy Ds Dm OS If Mf. cbn [n_structs make_ns] in E, Iy.
  unfold struct_types in HS. rewrite OS in HS. apply map_res_all2 in HS. set (L0 := sort_names (filter (is_struct_cls env) refs)) in *. set (L := topo L0) in *.
  assert (L0in : forall e, In e L0 <-> In e refs /\ is_struct_cls env e = true) by (intros e; unfold L0; rewrite sort_names_in, filter_In; tauto).
  assert (NL : NoDup L).
  { apply (Permutation_NoDup (Permutation_sym (TP L0))). apply (Permutation_NoDup (sort_perm _ _)). apply NoDup_filter, (cr_set _ _ _ HR). }
  assert (DF : dependencies_first env L).
  { apply TD. intros e. rewrite L0in. split; intros [A B]; split; auto; [now apply (structure_cls env)|].
    destruct B as [(fs & a & ds & ps & B) NE]. unfold is_struct_cls. rewrite B. apply Bool.negb_true_iff, Bool.not_true_is_false. intros HK. apply NE.
    unfold has_key, fields_of in HK. rewrite B in HK. apply existsb_exists in HK as (h & Ih & HK). exists fs, a, ds, ps. split; [exact B|]. exists h. split; [exact Ih|].
    unfold is_primary_key_type in HK. destruct (f_type h) eqn:Fh; simpl in HK; try discriminate. apply existsb_exists in HK as (mm & Im & Em).
    apply meta_eqb_eq in Em. subst mm. eexists _, _. eauto. }
  assert (Ic' : In c L) by (apply (Permutation_in _ (Permutation_sym (TP L0))), L0in; auto).
  assert (Id' : In d L) by (apply (Permutation_in _ (Permutation_sym (TP L0))), L0in; auto).
  apply in_split in Ic' as (a & b & EL). pose proof (DF a c b f d EL If Mf Id') as Ia.
  assert (KK : Forall2 (fun c (p : string * structt) => fst p = fst c /\ s_key (snd p) = snd c) L sts).
  { revert HS. apply all2_weaken. intros e p He. binds He. injection He as <-. split; [reflexivity|]. unfold s_key. cbn [snd].
    unfold dataclass_to_struct in E0. destruct (env e); try discriminate. binds E0. binds E0. injection E0 as <-. cbn [s_name].
    unfold class_qid, qualified_id_of in E2. binds E2. rewrite (ot_qualified _ _ _ HT (or_intror OS)) in E2. injection E2 as <-. reflexivity. }
  pose proof (structs_distinct L sts m NL KK) as ND. rewrite get_of in E, Iy. rewrite (make_id s_key _ ND) in E, Iy.
  rewrite EL in HS. destruct (all2_split _ _ _ _ _ HS) as (s1 & p & s2 & Es & H1 & H2). destruct (all2_in_l _ _ _ _ H1 Ia) as (p' & Ip' & H3).
  rewrite Cx in H2. cbn [bind] in H2. injection H2 as <-. rewrite Dy in H3. cbn [bind] in H3. injection H3 as <-.
  destruct (filter_split (fun p => String.eqb (fst p) m) s1 (fst c, x) s2 (fst d, y)) as (f1 & f2 & EF & IF); try (cbn [fst]; apply String.eqb_eq; congruence); auto.
  rewrite <- Es in EF. rewrite EF in E, ND. rewrite map_app in E, ND. cbn [map snd] in E, ND. apply NoDup_map_inv in ND.
  apply split_unique in E; [|exact ND]. rewrite <- E. apply in_map_iff. exists (fst d, y). auto.
Qed.
End Create3.
