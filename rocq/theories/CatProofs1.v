(** Groups of statements, one group per namespace. *)
From Verif Require Import PyStr QuoteModel ObjectDict ObjectDictSpec ObjectDictProofs Types Objects SqlAst Ddl Mutate DbSpec CatSpec DbLemmas EqProofs TabProofs1 TabProofs2 TabProofs3 TabProofs4 TabProofs5 NsProofs1 NsProofs2 NsProofs3 NsProofs4 NsProofs5.
From stdpp Require Import gmap strings.
Open Scope list_scope.

Section Group.
  Variables (En : engine) (Sc : gset string) (K : okey -> Prop).
  Context {A : Type} (name : A -> string) (prog : A -> list stmt) (R : A -> asrt).
  Definition grouped (l : list A) (P : asrt) : asrt := fun k v =>
    (forall x, In x l -> fst k = name x -> R x k v) /\ (~ In (fst k) (map name l) -> P k v).
  Lemma sta_grouped l P : (forall x, In x l -> sta K (R x)) -> sta K P -> sta K (grouped l P).
  Proof.
    intros H1 H2 k v v' Hs [Ha Hb]. split; [intros x I E; eapply H1; eauto|]. intros N. eapply H2; eauto.
  Qed.
  Lemma tri_group l (P : asrt) :
    base.NoDup (map name l) -> (forall x, In x l -> sta K (R x)) -> sta K P ->
    (forall x (P' : asrt), In x l -> sta K P' -> (forall k v, fst k = name x -> P' k v -> P k v) ->
       tri En Sc P' (prog x) (fun k v => (fst k = name x -> R x k v) /\ (fst k <> name x -> P' k v))) ->
    tri En Sc P (concat (map prog l)) (grouped l P).
  Proof.
    revert P. induction l as [|x l IH]; intros P W HR HP H.
    - simpl. eapply tri_weaken; [| |apply tri_nil with (P := P)]; [auto|]. intros k v Hv. split; [intros y []|auto].
    - cbn [map concat]. inversion W as [|? ? N W']; subst. rewrite elem_of_list_In in N.
      eapply tri_app with (Q := grouped [x] P).
      + eapply tri_weaken; [| |apply (H x P (or_introl eq_refl) HP)]; [auto| |auto]. intros k v [H1 H2]. split.
        * intros y [<-|[]] E. auto.
        * intros Hk. apply H2. intros E. apply Hk. now left.
      + eapply tri_weaken; [| |apply IH with (P := grouped [x] P)]; [auto| |exact W'| | |].
        * intros k v [H1 H2]. split.
          { intros y [<-|Iy] E; [|now apply H1]. destruct H2 as [H2 _]; [congruence|]. apply H2; [now left|exact E]. }
          intros Hk. destruct H2 as [_ H2]; [intros Z; apply Hk; now right|]. apply H2. intros [Z|[]]. apply Hk. now left.
        * intros y Iy. apply HR. now right.
        * apply sta_grouped; [|exact HP]. intros y [<-|[]]. apply HR. now left.
        * intros y P' Iy HP' Hq. apply H; [now right|exact HP'|]. intros k v E Hv. apply (Hq k v E) in Hv. destruct Hv as [_ Hv]. apply Hv.
          intros [Z|[]]. apply N. rewrite Z, E. now apply in_map.
  Qed.
End Group.

Lemma sta_ns_post d o s t K (P : asrt) :
  (forall ty, In ty (types_of t) -> free K ty) -> sta K P ->
  sta K (fun k v => ns_post d o s t P (snd k) v).
Proof.
  intros HF HP k v v' Hs H. constructor.
  - intros e I E. apply (st_exact K (want_enum e) (free_want_enum K e) v v' Hs). exact (np_enum _ _ _ _ _ _ _ H e I E).
  - intros e I E. eapply (st_exact K (want_struct d e)); [apply free_want_struct; intros c; now apply (fr_struct t K HF)|exact Hs|]. exact (np_struct _ _ _ _ _ _ _ H e I E).
  - intros e I E. eapply (st_exact K (OTable (want_tab d e))); [apply free_cols; intros c; now apply (fr_table t K HF)|exact Hs|]. exact (np_table _ _ _ _ _ _ _ H e I E).
  - intros N Hd. eapply stable_none; [exact Hs|]. exact (np_drop _ _ _ _ _ _ _ H N Hd).
  - intros N1 N2 N3 N4 N5. eapply HP; [exact Hs|]. exact (np_keep _ _ _ _ _ _ _ H N1 N2 N3 N4 N5).
  - intros N. assert (Q := np_soft _ _ _ _ _ _ _ H N). destruct (allow_drop_enum o); [eapply stable_none; eauto|eapply stable_type; eauto].
Qed.

(** ** Creation of the objects of a namespace *)
Section Create.
  Variables (d : dialect) (n : namespace) (Sc : gset string) (P : asrt).
  Hypothesis W : ns_wf d n.
  Hypothesis HSc : n_name n = ""%string \/ n_name n ∈ Sc.
  Hypothesis HN : forall m v, In m (map local_id (ns_names n)) -> P (n_name n, m) v -> v = None.
  Definition made (tabf : table -> dbtab) (k : okey) (v : option dbobj) : Prop :=
    (forall e, In e (n_enums n) -> ek e = k -> v = Some (want_enum e))
    /\ (forall e, In e (n_structs n) -> sk e = k -> v = Some (want_struct d e))
    /\ (forall e, In e (n_tables n) -> tk e = k -> v = Some (OTable (tabf e)))
    /\ (~ In k (map key_of (ns_names n)) -> P k v).
  Let nm := n_name n.
  Lemma names_n m : In m (map local_id (ns_names n)) <-> Es n m \/ Ss n m \/ Ts n m.
  Proof. unfold ns_names. rewrite !map_app, !map_map, !in_app_iff. reflexivity. Qed.
  Lemma excl_n m : (Es n m -> ~ Ss n m) /\ (Es n m -> ~ Ts n m) /\ (Ss n m -> ~ Ts n m).
  Proof. destruct (nodup_app3 _ _ _ (wf_names d n W)) as (_ & _ & _ & A1 & A2 & A3). repeat split; unfold Es, Ss, Ts; auto. Qed.
  Lemma kn_e e : In e (n_enums n) -> ek e = (nm, e_key e).
  Proof. intros I. exact (ek_s d n W e I). Qed.
  Lemma kn_s e : In e (n_structs n) -> sk e = (nm, s_key e).
  Proof. intros I. exact (sk_s d n W e I). Qed.
  Lemma kn_t e : In e (n_tables n) -> tk e = (nm, t_key e).
  Proof. intros I. exact (tk_s d n W e I). Qed.
  Lemma mn_e : map ek (n_enums n) = map (pr nm) (map e_key (n_enums n)).
  Proof. apply map_pair_keys. intros x I. now apply kn_e. Qed.
  Lemma mn_s : map sk (n_structs n) = map (pr nm) (map s_key (n_structs n)).
  Proof. apply map_pair_keys. intros x I. now apply kn_s. Qed.
  Lemma mn_t : map tk (n_tables n) = map (pr nm) (map t_key (n_tables n)).
  Proof. apply map_pair_keys. intros x I. now apply kn_t. Qed.
  Lemma in_keys k : In k (map key_of (ns_names n)) <-> In k (map ek (n_enums n)) \/ In k (map sk (n_structs n)) \/ In k (map tk (n_tables n)).
  Proof. unfold ns_names. rewrite !map_app, !map_map, !in_app_iff. reflexivity. Qed.

  Lemma create_objects_tri l : create_objects d n = Ok l -> tri (engine_of d) Sc P l (made (bare d)).
  Proof.
    intros H. unfold create_objects in H.
    match type of H with bind ?z _ = _ => destruct z as [l2|] eqn:H2; simpl in H; [|discriminate] end.
    match type of H with bind ?z _ = _ => destruct z as [l4|] eqn:H4; simpl in H; [|discriminate] end.
    injection H as <-. apply concat_res_ok in H2 as [H2 ->]. apply concat_res_ok in H4 as [H4 ->].
    set (B1 := after ek (fun e v => v = Some (want_enum e)) (n_enums n) P).
    set (B2 := after sk (fun e v => v = Some (want_struct d e)) (n_structs n) B1).
    set (B3 := after tk (fun e v => v = Some (OTable (bare d e))) (n_tables n) B2).
    assert (Sn : forall D m, db_schemas D = Sc -> schema_ok D (nm, m) = true) .
    { intros D m HS. unfold schema_ok. cbn [fst]. rewrite HS. destruct HSc as [Z|Z]; fold nm in Z; [rewrite Z; reflexivity|]. rewrite bool_decide_true by exact Z. apply orb_true_r. }
    assert (T : tri (engine_of d) Sc P (map create_enum (n_enums n) ++ concat (map (fun x => ok_or [] (create_struct d x)) (n_structs n)) ++ concat (map (fun x => ok_or [] (create_table d x)) (n_tables n))) B3).
    { eapply tri_app with (Q := B1); [|eapply tri_app with (Q := B2)].
      - rewrite map_concat_single. apply (tri_phase _ _ ek (fun e => [create_enum e])); [rewrite mn_e; apply nodup_pair, (nd_e d); exact W|].
        intros x D I HS Hx. exists (Some (want_enum x)). split; [|reflexivity]. assert (Hk := kn_e x I). cbn [exec_all].
        assert (Hn : gobj D (ek x) = None).
        { rewrite Hk in Hx |- *. eapply HN; [|exact Hx]. apply names_n. left. now apply in_map. }
        unfold ek in *. rewrite create_enum_exec; [reflexivity|exact (nw_enum _ _ W x I)|exact Hn|]. rewrite Hk. now apply Sn.
      - apply (tri_phase _ _ sk (fun x => ok_or [] (create_struct d x))); [rewrite mn_s; apply nodup_pair, (nd_s d); exact W|].
        intros x D I HS Hx. destruct (H2 x I) as [y Hy]. exists (Some (want_struct d x)). split; [|reflexivity]. assert (Hk := kn_s x I). rewrite Hy. cbn [ok_or].
        assert (Hs : Ss n (s_key x)) by now apply in_map. assert (X := excl_n (s_key x)).
        assert (Hn : gobj D (sk x) = None).
        { rewrite Hk in Hx |- *. apply after_out in Hx; [|rewrite mn_e, in_pair; fold (Es n (s_key x)); tauto]. eapply HN; [|exact Hx]. apply names_n. tauto. }
        unfold sk in *. apply create_struct_exec; [exact Hy|exact (nw_struct _ _ W x I)|exact Hn|]. rewrite Hk. now apply Sn.
      - apply (tri_phase _ _ tk (fun x => ok_or [] (create_table d x))); [rewrite mn_t; apply nodup_pair, (nd_t d); exact W|].
        intros x D I HS Hx. destruct (H4 x I) as [y Hy]. exists (Some (OTable (bare d x))). split; [|reflexivity]. assert (Hk := kn_t x I). rewrite Hy. cbn [ok_or].
        assert (Hs : Ts n (t_key x)) by now apply in_map. assert (X := excl_n (t_key x)).
        assert (Hn : gobj D (tk x) = None).
        { rewrite Hk in Hx |- *. apply after_out in Hx; [|rewrite mn_s, in_pair; fold (Ss n (t_key x)); tauto].
          apply after_out in Hx; [|rewrite mn_e, in_pair; fold (Es n (t_key x)); tauto]. eapply HN; [|exact Hx]. apply names_n. tauto. }
        unfold tk in *. apply create_table_exec; [exact Hy|exact (nw_table _ _ W x I)|exact Hn|]. rewrite Hk. now apply Sn. }
    eapply tri_weaken; [| |exact T]; [auto|]. intros k v Hv. split; [|split; [|split]].
    - intros e I <-. assert (Hk := kn_e e I). assert (Hs : Es n (e_key e)) by now apply in_map. assert (X := excl_n (e_key e)). rewrite Hk in Hv.
      apply after_out in Hv; [|rewrite mn_t, in_pair; fold (Ts n (e_key e)); tauto]. apply after_out in Hv; [|rewrite mn_s, in_pair; fold (Ss n (e_key e)); tauto].
      destruct Hv as [Hv _]. now apply Hv.
    - intros e I <-. assert (Hk := kn_s e I). assert (Hs : Ss n (s_key e)) by now apply in_map. assert (X := excl_n (s_key e)). rewrite Hk in Hv.
      apply after_out in Hv; [|rewrite mn_t, in_pair; fold (Ts n (s_key e)); tauto]. destruct Hv as [Hv _]. now apply Hv.
    - intros e I <-. destruct Hv as [Hv _]. now apply Hv.
    - rewrite in_keys. intros N. apply after_out in Hv; [|tauto]. apply after_out in Hv; [|tauto]. apply after_out in Hv; [exact Hv|tauto].
  Qed.
End Create.
