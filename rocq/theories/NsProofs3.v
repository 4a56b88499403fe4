(** Mutation of one namespace. *)
From Verif Require Import PyStr QuoteModel ObjectDict ObjectDictSpec ObjectDictProofs Types Objects SqlAst Ddl Mutate DbSpec CatSpec DbLemmas EqProofs TabProofs1 TabProofs2 TabProofs3 TabProofs4 TabProofs5 NsProofs1 NsProofs2.
From stdpp Require Import gmap strings.
Open Scope list_scope.

Definition gobj (D : db) (k : okey) : option dbobj := db_objs D !! k.

Section Stable.
  Variable K : okey -> Prop.
  Lemma stable_exact o v v' : free_obj K o -> soft K v v' -> v = Some o -> v' = Some o.
  Proof. intros Hf Hs ->. now apply (soft_free K). Qed.
  Lemma stable_none v v' : soft K v v' -> v = None -> v' = None.
  Proof. intros Hs ->. now apply (soft_none K). Qed.
  Definition p_type (v : option dbobj) : Prop := exists o, v = Some o /\ is_type o = true.
  Definition p_table (v : option dbobj) : Prop := exists o, v = Some (OTable o).
  Definition p_struct (v : option dbobj) : Prop := exists ms c, v = Some (OStruct ms c).
  Lemma stable_type v v' : soft K v v' -> p_type v -> p_type v'.
  Proof. intros Hs (o & -> & Ht). destruct (soft_some K o v' Hs) as (x & -> & Hx & _). exists x. split; congruence. Qed.
  Lemma stable_table v v' : soft K v v' -> p_table v -> p_table v'.
  Proof. intros Hs (o & ->). destruct (soft_some K _ v' Hs) as (x & -> & _ & _ & _ & H). destruct (H o eq_refl) as (tb & -> & _). now exists tb. Qed.
  Lemma stable_struct v v' : soft K v v' -> p_struct v -> p_struct v'.
  Proof. intros Hs (ms & c & ->). destruct (soft_some K _ v' Hs) as (x & -> & _ & _ & H & _). destruct (H _ _ eq_refl) as (ms' & -> & _). red; eauto. Qed.
  Definition p_tablelike d a b (v : option dbobj) : Prop := exists tb, v = Some (OTable tb) /\ tab_like d a b tb.
  Definition p_structlike d a b (v : option dbobj) : Prop := exists ms, v = Some (OStruct ms (struct_comment d a)) /\ struct_like a b ms.
  Lemma stable_tablelike d a b v v' : (forall c, In c (t_columns b) -> free K (c_type c)) -> soft K v v' -> p_tablelike d a b v -> p_tablelike d a b v'.
  Proof.
    intros Hf Hs (tb & -> & L). destruct (soft_some K _ v' Hs) as (x & -> & _ & _ & _ & H). destruct (H tb eq_refl) as (tb' & -> & R & C1 & C2).
    exists tb'. split; [reflexivity|]. unfold rest in R. injection R as R1 R2 R3. constructor.
    - now rewrite R1, (tl_pk _ _ _ _ L).
    - now rewrite R2, (tl_cons _ _ _ _ L).
    - now rewrite R3, (tl_comment _ _ _ _ L).
    - intros n. rewrite <- C2. apply (tl_dom _ _ _ _ L).
    - intros c Ic. destruct (tl_cols _ _ _ _ L c Ic) as (ty & Hc & Hq). destruct (C1 _ _ Hc) as (ty' & Hc' & Hq').
      exists ty'. split; [exact Hc'|]. intros c' Ic' En Et. assert (Hty := Hq c' Ic' En Et). simpl in Hq'. rewrite Hq'; [exact Hty|].
      rewrite Hty, Et. now apply Hf.
  Qed.
  Lemma stable_structlike d a b v v' : (forall c, In c (s_members b) -> free K (m_type c)) -> soft K v v' -> p_structlike d a b v -> p_structlike d a b v'.
  Proof.
    intros Hf Hs (ms & -> & L). destruct (soft_some K _ v' Hs) as (x & -> & _ & _ & H & _). destruct (H _ _ eq_refl) as (ms' & -> & C1 & C2).
    exists ms'. split; [reflexivity|]. constructor.
    - intros n. rewrite <- C2. apply (sl_dom _ _ _ L).
    - intros c Ic. destruct (sl_ms _ _ _ L c Ic) as (ty & Hc & Hq). destruct (C1 _ _ Hc) as (ty' & Hc' & Hq').
      exists ty'. split; [exact Hc'|]. intros c' Ic' En Et. assert (Hty := Hq c' Ic' En Et). rewrite Hq'; [exact Hty|].
      rewrite Hty, Et. now apply Hf.
  Qed.
  Lemma free_want_enum e : free_obj K (want_enum e). Proof. exact I. Qed.
  Lemma free_want_struct d x : (forall c, In c (s_members x) -> free K (m_type c)) -> free_obj K (want_struct d x).
  Proof.
    intros H n t. unfold want_members. rewrite lookup_list_to_map. destruct (find_by m_name n (s_members x)) as [m|] eqn:E; simpl; [|discriminate].
    intros [= <-]. apply find_by_some in E as [I _]. auto.
  Qed.
  Lemma free_cols d x pk ks cm : (forall c, In c (t_columns x) -> free K (c_type c)) -> free_obj K (OTable (DbTab (want_cols d (t_columns x)) pk ks cm)).
  Proof.
    intros H n c. simpl. unfold want_cols. rewrite lookup_list_to_map. destruct (find_by c_name n (t_columns x)) as [m|] eqn:E; simpl; [|discriminate].
    intros [= <-]. apply find_by_some in E as [I _]. simpl. auto.
  Qed.
End Stable.

(** one-object programs *)
Lemma step_set E (l : list stmt) D k o D' :
  exec_all E l D = Some D' -> D' = set_obj k o D ->
  run (exec E) l D = Some D' /\ db_schemas D' = db_schemas D /\ gobj D' k = o /\ forall k', k' <> k -> gobj D' k' = gobj D k'.
Proof.
  intros H ->. rewrite <- exec_all_run. split; [exact H|]. split; [reflexivity|]. unfold gobj. split; [apply set_obj_lookup|].
  intros k' N. apply set_obj_lookup_ne. congruence.
Qed.

Lemma in_diff_keys {A} (key : A -> string) a b n :
  In n (map key (od_difference key a b)) <-> In n (map key a) /\ ~ In n (map key b).
Proof.
  split.
  - intros H. apply in_map_iff in H as (x & <- & H). apply difference_in in H as [H1 H2]. split; [now apply in_map|exact H2].
  - intros [H1 H2]. apply in_map_iff in H1 as (x & <- & H1). apply in_map. apply difference_in. auto.
Qed.
Lemma in_inter_keys {A} (key : A -> string) a b n :
  In n (map (fun p => key (fst p)) (od_intersection key a b)) <-> In n (map key a) /\ In n (map key b).
Proof.
  split.
  - intros H. apply in_map_iff in H as ([x y] & <- & H). apply intersection_same in H as (H1 & H2 & H3). cbn [fst]. split; [now apply in_map|rewrite H3; now apply in_map].
  - intros [H1 H2]. apply in_map_iff in H1 as (x & <- & H1).
    destruct (od_get key (key x) b) as [y|] eqn:G.
    + apply in_map_iff. exists (x, y). split; [reflexivity|]. apply intersection_in. auto.
    + apply get_none in G. contradiction.
Qed.
Lemma in_pair_keys {A} (nm : string) (key : A -> string) l k :
  In k (map (fun x => (nm, key x)) l) <-> fst k = nm /\ In (snd k) (map key l).
Proof.
  split.
  - intros H. apply in_map_iff in H as (x & <- & H). cbn [fst snd]. split; [reflexivity|]. now apply in_map.
  - destruct k as [a n]. cbn [fst snd]. intros [-> H]. apply in_map_iff in H as (x & <- & H). apply in_map_iff. eauto.
Qed.
Lemma nodup_pair_keys {A} (nm : string) (key : A -> string) l :
  base.NoDup (map key l) -> base.NoDup (map (fun x => (nm, key x)) l).
Proof. intros H. rewrite <- (map_map key (pair nm)). apply NoDup_fmap_2; [intros a b; congruence|exact H]. Qed.
Lemma concat_single_map {A B} (f : A -> B) l : concat (map (fun x => [f x]) l) = map f l.
Proof. symmetry. apply map_concat_single. Qed.

Lemma nodup_app3 {A} (a b c : list A) : base.NoDup (a ++ b ++ c) ->
  base.NoDup a /\ base.NoDup b /\ base.NoDup c /\ (forall x, In x a -> ~ In x b) /\ (forall x, In x a -> ~ In x c) /\ (forall x, In x b -> ~ In x c).
Proof.
  intros H. apply NoDup_app in H as (H1 & H2 & H3). apply NoDup_app in H3 as (H3 & H4 & H5).
  split; [exact H1|]. split; [exact H3|]. split; [exact H5|]. repeat split; intros x Hx Hy.
  - apply (H2 x); [now apply elem_of_list_In|]. apply elem_of_list_In, in_or_app. now left.
  - apply (H2 x); [now apply elem_of_list_In|]. apply elem_of_list_In, in_or_app. now right.
  - apply (H4 x); now apply elem_of_list_In.
Qed.
