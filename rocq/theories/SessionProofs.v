(** The believed state follows the database. *)
From Verif Require Import PyStr QuoteModel ObjectDict ObjectDictProofs Types Objects SqlAst Ddl Mutate TopoSpec SortSpec SortProofs DbSpec CatSpec MutSpec RefSpec KeySpec
  DbLemmas EqProofs TabProofs1 NsProofs3 NsProofs4 NsProofs5 CatProofs1 CatProofs2 CatProofs3 CatProofs4 CatProofs5 NoopProofs Session SessionSpec.
From stdpp Require Import gmap strings.
Open Scope list_scope.

Lemma plus_lookup_in d c F k x : cat_wf d c -> cat_objs d c !! k = Some x -> db_objs (plus_cat d c F) !! k = Some x.
Proof. intros W H. simpl. now apply lookup_union_Some_l. Qed.
Lemma plus_lookup_out d c F k : cat_wf d c -> ~ In k (cat_keys c) -> db_objs (plus_cat d c F) !! k = db_objs F !! k.
Proof. intros W H. simpl. apply lookup_union_r. now apply (cat_objs_none d). Qed.
Lemma plus_has d c F : cat_wf d c -> has_cat d c (plus_cat d c F).
Proof.
  intros W. destruct (exact_has d c W) as [H1 H2]. split.
  - intros n I. destruct (H1 n I) as [Z|Z]; [now left|right]. simpl in *. set_solver.
  - intros n k x I Hx. apply plus_lookup_in; [exact W|]. exact (H2 n k x I Hx).
Qed.
Lemma key_in_ns d c k : cat_wf d c -> In k (cat_keys c) -> In (fst k) (map n_name c).
Proof. intros W H. apply in_cat_keys in H as (n & I & Hk). rewrite (key_scope d c n k W I Hk). now apply in_map. Qed.
Lemma parked_ns d s t e : cat_wf d s -> replaced s t e -> In (fst (parked e)) (map n_name s).
Proof.
  intros W (a & b & x & Ia & _ & _ & Ie & _). unfold parked. cbn [fst]. apply (key_in_ns d s (key_of (e_name e)) W).
  apply in_cat_keys. exists a. split; [exact Ia|]. apply in_map_iff. exists (e_name e). split; [reflexivity|]. unfold ns_names. rewrite !in_app_iff, in_map_iff. left. eauto.
Qed.
Lemma replaced_key s t e : replaced s t e -> In (key_of (e_name e)) (cat_keys s).
Proof.
  intros (a & b & x & Ia & _ & _ & Ie & _). apply in_cat_keys. exists a. split; [exact Ia|]. apply in_map_iff. exists (e_name e). split; [reflexivity|]. unfold ns_names. rewrite !in_app_iff, in_map_iff. left. eauto.
Qed.

Theorem mutation_frame d o s t s' t' l F :
  mutate_catalog d o s t = Ok (s', t', l) -> drops_all o -> cat_wf d s -> cat_wf d t -> cat_compat d s t ->
  (forall e, replaced s t e -> ~ In (parked e) (cat_keys s)) -> apart s F -> apart t F ->
  exec_all (engine_of d) l (plus_cat d s F) = Some (plus_cat d t F).
Proof.
  intros H Ho Ws Wt C HP As At. set (D := plus_cat d s F).
  assert (Out : forall k, ~ In k (cat_keys s) -> db_objs D !! k = db_objs F !! k) by (intros k Hk; now apply plus_lookup_out).
  assert (Fs : forall k, In (fst k) (map n_name s) -> db_objs F !! k = None).
  { intros k Hk. destruct (db_objs F !! k) as [x|] eqn:E; [|reflexivity]. destruct (ap_objs _ _ As k x E Hk). }
  assert (Ft : forall k, In (fst k) (map n_name t) -> db_objs F !! k = None).
  { intros k Hk. destruct (db_objs F !! k) as [x|] eqn:E; [|reflexivity]. destruct (ap_objs _ _ At k x E Hk). }
  assert (Sch : forall x, x ∈ db_schemas D <-> x ∈ db_schemas F \/ x ∈ cat_schemas s) by (intros x; unfold D; simpl; set_solver).
  destruct (mutation_outcome d o s t s' t' l D H Ws Wt C (plus_has d s F Ws)) as (D' & X & O).
  - constructor.
    + intros k Kt Ks. rewrite Out by exact Ks. apply Ft. now apply (key_in_ns d t).
    + intros n It Is. destruct (String.eqb_spec (n_name n) "") as [E|E]; [now left|right]. rewrite Sch, in_cat_schemas.
      intros [Z|[_ Z]]; [|now apply Is]. destruct (ap_schemas _ _ At n It); tauto.
    + intros e He. rewrite Out by now apply HP. apply Fs. now apply (parked_ns d s t).
  - intros _ _ n k In_ _ _ Ek Hk. rewrite Out by exact Hk. apply Fs. rewrite Ek. now apply in_map.
  - rewrite X. f_equal. destruct D' as [Sc' O']. unfold plus_cat. f_equal.
    + apply set_eq. intros x. assert (Z := oc_schemas _ _ _ _ _ _ O x). cbn [db_schemas] in Z. destruct Ho as (_ & _ & _ & Ho). rewrite Z, Sch, elem_of_union, Ho.
      assert (Nf : x ∈ db_schemas F -> x ∉ cat_schemas s).
      { intros Hf Hs. apply in_cat_schemas in Hs as [N Hs]. apply in_map_iff in Hs as (n & <- & I). destruct (ap_schemas _ _ As n I); tauto. }
      tauto.
    + apply map_eq. intros k. destruct (in_dec (fun a b => decide (a = b)) k (cat_keys t)) as [Kt|Kt].
      * assert (Kt' := Kt). apply in_cat_keys in Kt as (n & It & Hk). rewrite <- (ns_objs_keys d) in Hk. apply in_map_iff in Hk as ([k' x] & Ek & Hx). cbn [fst] in Ek. subst k'.
        assert (Y := proj2 (oc_target _ _ _ _ _ _ O) n k x It Hx). cbn [db_objs] in Y. etransitivity; [exact Y|]. symmetry. apply lookup_union_Some_l. apply cat_objs_lookup; eauto.
      * rewrite lookup_union_r by now apply (cat_objs_none d).
        destruct (in_dec (fun a b => decide (a = b)) k (cat_keys s)) as [Ks|Ks].
        -- rewrite Fs by now apply (key_in_ns d s). exact (outcome_rest d o s t D _ k Ws Ho O Ks Kt Wt).
        -- assert (Dn : allow_drop_namespace o = true) by apply Ho.
           destruct (in_dec string_dec (fst k) (map n_name s)) as [I1|I1].
           ++ rewrite Fs by exact I1.
              assert (G : (exists n, removed_ns s t n /\ n_name n <> ""%string /\ fst k = n_name n) \/ ~ (exists n, removed_ns s t n /\ n_name n <> ""%string /\ fst k = n_name n)).
              { destruct (String.eqb_spec (fst k) "") as [E0|E0]; [right; intros (n & _ & N & E); congruence|].
                destruct (in_dec string_dec (fst k) (map n_name t)) as [I2|I2]; [right; intros (n & [_ N1] & _ & E); apply N1; now rewrite <- E|].
                left. apply in_map_iff in I1 as (n & E & I1). exists n. split; [split; [exact I1|now rewrite E]|]. split; [now rewrite E|now symmetry]. }
              destruct G as [(n & Hn & Nn & En)|G]; [exact (oc_schema_gone _ _ _ _ _ _ O Dn n k Hn Nn En)|].
              assert (V : forall e, replaced s t e -> k = parked e -> O' !! k = None).
              { intros e He ->. assert (Z := oc_parked _ _ _ _ _ _ O e He). rewrite (proj1 Ho) in Z. exact Z. }
              assert (U : (forall e, replaced s t e -> k <> parked e) -> O' !! k = None).
              { intros P. apply (kp_none _ _ _ _ (oc_frame _ _ _ _ _ _ O k Ks Kt P (fun _ n Hn Nn E => G (ex_intro _ n (conj Hn (conj Nn E)))))). rewrite Out by exact Ks. now apply Fs. }
              destruct (O' !! k) as [y|] eqn:Ey; [exfalso|reflexivity].
              assert (Q : forall e, replaced s t e -> k <> parked e) by (intros e He E; discriminate (V e He E)). discriminate (U Q).
           ++ assert (Kp : kept s t (db_objs D !! k) (O' !! k)).
              { apply (oc_frame _ _ _ _ _ _ O k Ks Kt).
                - intros e He E. apply I1. rewrite E. now apply (parked_ns d s t).
                - intros _ n [Hn _] _ E. apply I1. rewrite E. now apply in_map. }
              rewrite (Out k Ks) in Kp. destruct (db_objs F !! k) as [x|] eqn:Ef; [|now apply (kp_none _ _ _ _ Kp)].
              apply (kp_same _ _ _ _ Kp); [reflexivity|]. intros e He. apply (ap_types _ _ As k x); [exact Ef|]. now apply (replaced_key s t).
Qed.

Lemma plus_perm d c c' F : cat_wf d c -> Permutation c c' -> plus_cat d c F = plus_cat d c' F.
Proof.
  intros W P. unfold plus_cat. rewrite (schemas_perm c c' P). do 2 f_equal. assert (W' := wf_perm d c c' P W).
  apply map_eq. intros k. apply option_eq. intros x. rewrite !cat_objs_lookup by assumption. setoid_rewrite (is_ c c' P). reflexivity.
Qed.
Lemma apart_perm c c' F : Permutation c c' -> apart c F -> apart c' F.
Proof.
  intros P [A1 A2 A3]. constructor.
  - intros k x H. rewrite <- (names_perm c c' _ P). eauto.
  - intros n I. apply A2. now apply (is_ c c' P).
  - intros k x j H. rewrite <- (keys_perm c c' _ P). eauto.
Qed.
Lemma sorted_perm c : base.NoDup (map n_name c) -> Permutation c (sorted_or_same c).
Proof.
  intros N. unfold sorted_or_same. assert (C := cat_sort_correct c (proj1 (NoDup_ListNoDup _) N)). destruct (cat_sort c); [now destruct C as [[C _] _]|reflexivity].
Qed.

(** execution without faults *)
Lemma exec_upto_all E l D D' : exec_all E l D = Some D' -> exec_upto E None l D = (D', true).
Proof.
  revert D. induction l as [|s l IH]; intros D H; simpl in *; [now injection H as ->|]. destruct (exec E s D) as [D1|]; [|discriminate]. now apply IH.
Qed.
Lemma exec_upto_fault E f l : forall D, exists k, exec_all E (firstn k l) D = Some (fst (exec_upto E f l D)).
Proof.
  revert f. induction l as [|s l IH]; intros f D; simpl.
  - exists 0. destruct f as [[|f]|]; reflexivity.
  - destruct f as [[|f]|]; [exists 0; reflexivity| |].
    + destruct (exec E s D) as [D1|] eqn:X; [|exists 0; reflexivity]. destruct (IH (Some f) D1) as [k Hk]. exists (S k). simpl. rewrite X. exact Hk.
    + destruct (exec E s D) as [D1|] eqn:X; [|exists 0; reflexivity]. destruct (IH None D1) as [k Hk]. exists (S k). simpl. rewrite X. exact Hk.
Qed.

(** ** Histories *)
Section Hist.
  Context (d : dialect) (o : options) (F : db).
  Hypothesis Ho : drops_all o.

  Definition at_cat (c : catalog) (w : world) : Prop := Permutation c (w_state w) /\ w_db w = plus_cat d c F.

  Lemma step_target c t w : cat_wf d c -> cat_wf d t -> apart c F -> apart t F -> step_ok d c t -> at_cat c w ->
    let (w', ok) := run_call (engine_of d) None (gen_create d o (w_state w) (Ok t)) (w_db w) in
    if ok then at_cat t w' else at_cat c w' /\ w_db w' = w_db w.
  Proof.
    intros Wc Wt Ac At [C HP] (P & E). unfold gen_create. assert (Ws := wf_perm d c _ P Wc).
    destruct (mutate_catalog d o (w_state w) t) as [[[s' t'] l]|e] eqn:H.
    - assert (X : exec_all (engine_of d) l (w_db w) = Some (plus_cat d t F)).
      { rewrite E, (plus_perm d c _ F Wc P). eapply mutation_frame; [exact H|exact Ho|exact Ws|exact Wt| | | |exact At].
        - eapply compat_perm; [exact P|reflexivity|exact C].
        - intros e He. rewrite <- (keys_perm c _ _ P). apply HP. eapply replaced_perm; [exact P|reflexivity|exact He].
        - eapply apart_perm; [exact P|exact Ac]. }
      assert (Pt : Permutation t t') by (apply mutate_catalog_parts in H as (_ & Pt & _); [exact Pt|exact (cw_names _ _ Ws)|exact (cw_names _ _ Wt)]).
      destruct l as [|s0 l0].
      + simpl in X. injection X as X. simpl. split; [exact Pt|exact X].
      + cbn [run_call]. rewrite (exec_upto_all _ _ _ _ X). split; [exact Pt|reflexivity].
    - simpl. assert (P1 : Permutation (w_state w) (sorted_or_same (w_state w))) by (apply sorted_perm; exact (cw_names _ _ Ws)).
      split; [split; [now transitivity (w_state w)|exact E]|reflexivity].
  Qed.
  Lemma wf_nil : cat_wf d []. Proof. constructor; [constructor|intros n []]. Qed.
  Lemma apart_nil : apart [] F.
  Proof. constructor; [intros k x _ []|intros n []|intros k x j _ []]. Qed.
  Lemma step_nil_r c : step_ok d c [].
  Proof. split; [constructor; [intros a b _ []|intros e n ty q _ []|intros e (a & b & x & _ & [] & _)]|intros e (a & b & x & _ & [] & _)]. Qed.
  Lemma step_nil_l t : step_ok d [] t.
  Proof. split; [constructor; [intros a b []|intros e n ty q (a & b & x & [] & _)|intros e (a & b & x & [] & _)]|intros e (a & b & x & [] & _)]. Qed.

  Lemma history cs : forall c w, cat_wf d c -> apart c F -> at_cat c w ->
    (forall t, In t (targets cs) -> cat_wf d t /\ apart t F) -> (forall t, In t (targets cs) -> step_ok d c t) -> ForallOrdPairs (step_ok d) (targets cs) ->
    exists c', (c' = c \/ c' = [] \/ In c' (targets cs)) /\ at_cat c' (run_calls d o (engine_of d) cs w).
  Proof.
    induction cs as [|k cs IH]; intros c w Wc Ac Hw HT HS HO; [exists c; auto|].
    unfold run_calls. cbn [fold_left]. change (exists c', (c' = c \/ c' = [] \/ In c' (targets (k :: cs))) /\ at_cat c' (run_calls d o (engine_of d) cs (fst (run_one d o (engine_of d) None k w)))).
    destruct k as [[t|e]|].
    - change (targets (KCreate (Ok t) :: cs)) with (t :: targets cs) in *. inversion HO as [|? ? HO1 HO2]; subst. destruct (HT t (or_introl eq_refl)) as [Wt At].
      assert (Z := step_target c t w Wc Wt Ac At (HS t (or_introl eq_refl)) Hw). unfold run_one, create_objects. destruct (run_call _ _ _ _) as [w' [|]]; cbn [fst].
      + destruct (IH t w' Wt At Z) as (c' & Hc & Hw'); [intros; apply HT; now right|intros u Iu; rewrite Forall_forall in HO1; apply HO1; now apply elem_of_list_In|exact HO2|].
        exists c'. split; [|exact Hw']. simpl. intuition (subst; auto).
      + destruct (IH c w' Wc Ac (proj1 Z)) as (c' & Hc & Hw'); [intros; apply HT; now right|intros; apply HS; now right|exact HO2|]. exists c'. split; [simpl; tauto|exact Hw'].
    - change (targets (KCreate (Err e) :: cs)) with (targets cs) in *. assert (Z : at_cat c (fst (run_one d o (engine_of d) None (KCreate (Err e)) w))) by (destruct w; exact Hw).
      exact (IH c _ Wc Ac Z HT HS HO).
    - change (targets (KDrop :: cs)) with (targets cs) in *.
      assert (Z := step_target c [] w Wc wf_nil Ac apart_nil (step_nil_r c) Hw). unfold run_one, drop_objects, gen_drop. destruct (run_call _ _ _ _) as [w' [|]]; cbn [fst].
      + destruct (IH [] w' wf_nil apart_nil Z HT) as (c' & Hc & Hw'); [intros; apply step_nil_l|exact HO|]. exists c'. split; [tauto|exact Hw'].
      + exact (IH c w' Wc Ac (proj1 Z) HT HS HO).
  Qed.
  Lemma at_mirror c w : cat_wf d c -> at_cat c w -> w_db w = plus_cat d (w_state w) F.
  Proof. intros W (P & E). rewrite E. now apply plus_perm. Qed.
  Lemma plus_nil : plus_cat d [] F = F.
  Proof. unfold plus_cat. destruct F as [a b]. simpl. f_equal; [unfold cat_schemas; simpl; set_solver|]. unfold cat_objs. simpl. now rewrite (left_id_L ∅ (∪)). Qed.
  Lemma history_mirror cs : (forall t, In t (targets cs) -> cat_wf d t /\ apart t F) -> ForallOrdPairs (step_ok d) (targets cs) ->
    w_db (run_calls d o (engine_of d) cs (World [] F)) = plus_cat d (w_state (run_calls d o (engine_of d) cs (World [] F))) F.
  Proof.
    intros HT HO. destruct (history cs [] (World [] F)) as (c & Hc & Hw); auto using wf_nil, apart_nil, step_nil_l.
    - split; [reflexivity|]. simpl. now rewrite plus_nil.
    - apply (at_mirror c); [|exact Hw]. destruct Hc as [->|[->|Hc]]; auto using wf_nil. now apply HT.
  Qed.
End Hist.

(** a call of the generator that raises keeps the believed catalog, up to the order of the namespaces *)
Lemma gen_create_err d o st t st' e : base.NoDup (map n_name st) -> gen_create d o st t = (st', Err e) -> Permutation st st'.
Proof.
  intros N. unfold gen_create. destruct t as [t|]; [|intros [= <- _]; reflexivity].
  destruct (mutate_catalog d o st t) as [[[? ?] ?]|]; intros [= <- _]. now apply sorted_perm.
Qed.
Lemma gen_mutate_state d o st t : base.NoDup (map n_name st) -> Permutation st (fst (gen_mutate d o st t)).
Proof.
  intros N. unfold gen_mutate. destruct (mutate_catalog d o st t) as [[[s' t'] l]|] eqn:H; [|now apply sorted_perm]. simpl.
  unfold mutate_catalog in H. assert (Cs := cat_sort_correct st (proj1 (NoDup_ListNoDup _) N)). destruct (cat_sort st) as [s1|]; simpl in H; [|discriminate].
  destruct (cat_sort t); simpl in H; [|discriminate]. destruct (mutate_sorted _ _ _ _); simpl in H; [|discriminate]. injection H as <- <- <-. now destruct Cs as [[C _] _].
Qed.

From Verif Require Import MergeSpec MergeProofs.
(** ** Compatibility of a catalog with itself *)
Lemma in_unique {A} (f : A -> string) l a b : List.NoDup (map f l) -> In a l -> In b l -> f a = f b -> a = b.
Proof. intros N Ia Ib E. assert (Z := ObjectDictProofs.get_in f l a N Ia). rewrite E in Z. rewrite (ObjectDictProofs.get_in f l b N Ib) in Z. now injection Z. Qed.
Lemma tab_compat_refl d t : tab_wf d t -> tab_compat d t t.
Proof.
  intros W. assert (N := proj1 (NoDup_ListNoDup _) (tw_cols _ _ W)). constructor; [reflexivity| | | |].
  - intros a b Ia Ib E. assert (a = b) by (eapply in_unique; eauto). subst b. split; [unfold ident_compat; congruence|unfold default_compat; reflexivity].
  - intros a b Ia Ib E (M & _). assert (a = b) by (eapply in_unique; eauto). subst b. now destruct M.
  - intros _ a k Ia Na. exfalso. apply Na. now apply in_map.
  - intros _. split; [reflexivity|]. intros a b Ia Ib E. assert (a = b) by (eapply in_unique; eauto). subst b. split; [reflexivity|]. unfold default_as_is. auto.
Qed.
Lemma ns_compat_refl d n : ns_wf d n -> ns_compat d n n.
Proof.
  intros W. assert (N := proj1 (NoDup_ListNoDup _) (nw_keys _ _ W)). unfold ns_names in N. rewrite !map_app, !map_map in N.
  change (List.NoDup (map e_key (n_enums n) ++ map s_key (n_structs n) ++ map t_key (n_tables n))) in N.
  assert (Dj : forall (a b : list string) x, List.NoDup (a ++ b) -> In x a -> In x b -> False).
  { induction a as [|y a IH]; intros b x H Ia Ib; [destruct Ia|]. simpl in H. inversion H as [|? ? H1 H2]; subst. destruct Ia as [->|Ia]; [apply H1, in_app_iff; auto|eauto]. }
  assert (N2 : List.NoDup (map s_key (n_structs n) ++ map t_key (n_tables n))) by (apply NoDup_ListNoDup; apply NoDup_ListNoDup in N; apply NoDup_app in N; tauto).
  assert (N3 : List.NoDup (map t_key (n_tables n))) by (apply NoDup_ListNoDup; apply NoDup_ListNoDup in N2; apply NoDup_app in N2; tauto).
  constructor.
  - intros a b Ia Ib E. assert (a = b) by (eapply in_unique; eauto). subst b. apply tab_compat_refl. now apply (nw_table _ _ W).
  - intros e x Ie Ix E. exfalso. eapply Dj; [exact N|apply in_map; exact Ie|]. rewrite in_app_iff. right. rewrite E. now apply in_map.
  - intros e x Ie Ix E. eapply Dj; [exact N|apply in_map; exact Ie|]. rewrite in_app_iff. left. rewrite E. now apply in_map.
  - intros x Ix. split; intros Z.
    + eapply Dj; [exact N|exact Z|]. rewrite in_app_iff. left. now apply in_map.
    + eapply Dj; [exact N2|apply in_map; exact Ix|exact Z].
  - intros x Ix. split; intros Z.
    + eapply Dj; [exact N|exact Z|]. rewrite in_app_iff. right. now apply in_map.
    + eapply Dj; [exact N2|exact Z|now apply in_map].
Qed.
Lemma replaced_self d c e : cat_wf d c -> ~ replaced c c e.
Proof.
  intros W (a & b & x & Ia & Ib & E & Ie & Ix & En & Ne).
  assert (a = b) by (eapply in_unique; [exact (proj1 (NoDup_ListNoDup _) (cw_names _ _ W))| | |]; eauto). subst b. apply Ne. now apply in_map.
Qed.
Lemma compat_refl d c : cat_wf d c -> cat_compat d c c.
Proof.
  intros W. constructor.
  - intros a b Ia Ib E. assert (a = b) by (eapply in_unique; [exact (proj1 (NoDup_ListNoDup _) (cw_names _ _ W))| | |]; eauto). subst b. apply ns_compat_refl. now apply (cw_ns _ _ W).
  - intros e n ty q R. destruct (replaced_self d c e W R).
  - intros e R. destruct (replaced_self d c e W R).
Qed.
Lemma step_refl d c : cat_wf d c -> step_ok d c c.
Proof. intros W. split; [now apply compat_refl|]. intros e R. destruct (replaced_self d c e W R). Qed.

(** ** Equal catalogs have the same references *)
Lemma cat_eqb_parts c t : cat_keyed c -> cat_keyed t -> cat_eqb c t = true ->
  (forall x, In x c -> exists y, In y t /\ n_name x = n_name y /\ ns_eqb x y = true) /\ (forall y, In y t -> exists x, In x c /\ n_name x = n_name y /\ ns_eqb x y = true).
Proof.
  intros [N1 _] [N2 _] E. assert (E' := E). unfold cat_eqb, od_eqb in E. apply andb_true_iff in E as [_ E]. rewrite forallb_forall in E.
  assert (A : forall x, In x c -> exists y, In y t /\ n_name x = n_name y /\ ns_eqb x y = true).
  { intros x Ix. specialize (E x Ix). destruct (od_get n_name (n_name x) t) as [y|] eqn:G; [|discriminate]. apply get_some in G as [Iy Ky]. eauto. }
  split; [exact A|]. intros y Iy. assert (Z := eqb_diff_r n_name ns_eqb c t N1 E').
  destruct (in_dec string_dec (n_name y) (map n_name c)) as [I|I].
  - apply in_map_iff in I as (x & Ex & Ix). exists x. split; [exact Ix|]. split; [exact Ex|]. destruct (A x Ix) as (y' & Iy' & Ey & He).
    assert (y' = y) by (eapply in_unique; [exact N2| | |]; eauto; congruence). now subst.
  - exfalso. assert (Iz : In y (od_difference n_name t c)) by (apply difference_in; auto). rewrite Z in Iz. destruct Iz.
Qed.
Lemma od_parts {A} (key : A -> string) eqA a b x : List.NoDup (map key a) -> List.NoDup (map key b) -> od_eqb key eqA a b = true -> In x a -> exists y, In y b /\ eqA x y = true.
Proof.
  intros N1 N2 E I. unfold od_eqb in E. apply andb_true_iff in E as [_ E]. rewrite forallb_forall in E. specialize (E x I).
  destruct (od_get key (key x) b) as [y|] eqn:G; [|discriminate]. apply get_some in G as [Iy _]. eauto.
Qed.
Lemma od_parts_r {A} (key : A -> string) eqA a b y : List.NoDup (map key a) -> List.NoDup (map key b) -> od_eqb key eqA a b = true -> In y b -> exists x, In x a /\ eqA x y = true.
Proof.
  intros N1 N2 E I. assert (Z := eqb_diff_r key eqA a b N1 E).
  destruct (in_dec string_dec (key y) (map key a)) as [Ik|Ik].
  - apply in_map_iff in Ik as (x & Ex & Ix). destruct (od_parts key eqA a b x N1 N2 E Ix) as (y' & Iy' & He).
    exists x. split; [exact Ix|]. unfold od_eqb in E. apply andb_true_iff in E as [_ E]. rewrite forallb_forall in E. specialize (E x Ix).
    rewrite Ex, (ObjectDictProofs.get_in key b y N2 I) in E. exact E.
  - exfalso. assert (Iz : In y (od_difference key b a)) by (apply difference_in; auto). rewrite Z in Iz. destruct Iz.
Qed.
Lemma ns_eqb_split a b : ns_eqb a b = true -> n_name a = n_name b /\ od_eqb e_key enum_eqb (n_enums a) (n_enums b) = true /\ od_eqb s_key struct_eqb (n_structs a) (n_structs b) = true /\ od_eqb t_key table_eqb (n_tables a) (n_tables b) = true.
Proof. unfold ns_eqb. rewrite !andb_true_iff, String.eqb_eq. tauto. Qed.
Lemma uses_eqb a b q : ns_keyed a -> ns_keyed b -> ns_eqb a b = true -> uses a q <-> uses b q.
Proof.
  intros [A1 A2 A3 A4 A5] [B1 B2 B3 B4 B5] E. apply ns_eqb_split in E as (_ & _ & Es & Et). split.
  - intros [x m Ix Im U|x c Ix Ic U|x k cs rc Ix Ik|x k cs refs rc Ix Ik Ir].
    + destruct (od_parts s_key struct_eqb _ _ x A2 B2 Es Ix) as (y & Iy & E). apply struct_same in E as (_ & P & _); [|auto|auto]. eapply uses_member; [exact Iy|eapply Permutation_in; [exact P|exact Im]|exact U].
    + destruct (od_parts t_key table_eqb _ _ x A3 B3 Et Ix) as (y & Iy & E). apply table_same in E as (_ & P & _); [|auto|auto]. eapply uses_column; [exact Iy|eapply Permutation_in; [exact P|exact Ic]|exact U].
    + destruct (od_parts t_key table_eqb _ _ x A3 B3 Et Ix) as (y & Iy & E). apply table_same in E as (_ & _ & _ & P & _); [|auto|auto]. eapply uses_foreign; [exact Iy|eapply Permutation_in; [exact P|exact Ik]].
    + destruct (od_parts t_key table_eqb _ _ x A3 B3 Et Ix) as (y & Iy & E). apply table_same in E as (_ & _ & _ & P & _); [|auto|auto]. eapply uses_discr; [exact Iy|eapply Permutation_in; [exact P|exact Ik]|exact Ir].
  - intros [y m Iy Im U|y c Iy Ic U|y k cs rc Iy Ik|y k cs refs rc Iy Ik Ir].
    + destruct (od_parts_r s_key struct_eqb _ _ y A2 B2 Es Iy) as (x & Ix & E). apply struct_same in E as (_ & P & _); [|auto|auto]. eapply uses_member; [exact Ix|eapply Permutation_in; [symmetry; exact P|exact Im]|exact U].
    + destruct (od_parts_r t_key table_eqb _ _ y A3 B3 Et Iy) as (x & Ix & E). apply table_same in E as (_ & P & _); [|auto|auto]. eapply uses_column; [exact Ix|eapply Permutation_in; [symmetry; exact P|exact Ic]|exact U].
    + destruct (od_parts_r t_key table_eqb _ _ y A3 B3 Et Iy) as (x & Ix & E). apply table_same in E as (_ & _ & _ & P & _); [|auto|auto]. eapply uses_foreign; [exact Ix|eapply Permutation_in; [symmetry; exact P|exact Ik]].
    + destruct (od_parts_r t_key table_eqb _ _ y A3 B3 Et Iy) as (x & Ix & E). apply table_same in E as (_ & _ & _ & P & _); [|auto|auto]. eapply uses_discr; [exact Ix|eapply Permutation_in; [symmetry; exact P|exact Ik]|exact Ir].
Qed.
Lemma circular_eqb c t : cat_keyed c -> cat_keyed t -> cat_eqb c t = true -> circular c -> circular t.
Proof.
  intros Kc Kt E. destruct (cat_eqb_parts c t Kc Kt E) as [A _]. intros (n & H). exists n. revert H. apply SortProofs.clos_iff.
  intros a b (Nab & x & y & q & Ix & Iy & Ex & Ey & U & Sq). split; [exact Nab|].
  destruct (A x Ix) as (x' & Ix' & Exx & Hx). destruct (A y Iy) as (y' & Iy' & Eyy & Hy). exists x', y', q. repeat split; auto; try congruence.
  apply (uses_eqb x x'); auto; [now apply (ck_ns _ Kc)|now apply (ck_ns _ Kt)].
Qed.
Lemma circular_perm c c' : Permutation c c' -> circular c -> circular c'.
Proof.
  intros P (n & H). exists n. revert H. apply SortProofs.clos_iff. intros a b (Nab & x & y & q & Ix & Iy & R). split; [exact Nab|]. exists x, y, q.
  split; [now apply (is_ c c' P)|]. split; [now apply (is_ c c' P)|exact R].
Qed.
Lemma sort_not_circular c c' : base.NoDup (map n_name c) -> cat_sort c = Ok c' -> ~ circular c.
Proof. intros N H. assert (C := cat_sort_correct c (proj1 (NoDup_ListNoDup _) N)). rewrite H in C. tauto. Qed.

Lemma wf_keyed d c : cat_wf d c -> cat_keyed c.
Proof.
  intros W. constructor; [apply NoDup_ListNoDup; exact (cw_names _ _ W)|]. intros n I. assert (Wn := cw_ns _ _ W n I).
  assert (N := nw_keys _ _ Wn). unfold ns_names in N. rewrite !map_app, !map_map in N. apply NoDup_app in N as (N1 & _ & N). apply NoDup_app in N as (N2 & _ & N3).
  constructor; try (apply NoDup_ListNoDup; assumption).
  - intros x Ix. apply NoDup_ListNoDup. exact (nw_struct _ _ Wn x Ix).
  - intros x Ix. assert (Wx := nw_table _ _ Wn x Ix). constructor; apply NoDup_ListNoDup; [exact (tw_cols _ _ Wx)|exact (tw_cons _ _ Wx)].
Qed.
Lemma cat_eqb_perm_r c t t' : cat_keyed t -> Permutation t t' -> cat_eqb c t = cat_eqb c t'.
Proof. intros K P. apply (eqb_permute n_name ns_eqb c c t t'); [exact (ck_names _ K)|reflexivity|exact P]. Qed.
Lemma keyed_perm c c' : Permutation c c' -> cat_keyed c -> cat_keyed c'.
Proof. intros P [N K]. constructor; [apply NoDup_ListNoDup; apply NoDup_ListNoDup in N; now rewrite <- P|]. intros n I. apply K. now apply (is_ c c' P). Qed.

(** ** Synchronization *)
Section Sync.
  Context (d : dialect) (o : options) (X : explorer) (mods : list string) (t : catalog).
  Lemma gen_create_ok st t' l : gen_create d o st (Ok t) = (t', Ok l) -> exists s', mutate_catalog d o st t = Ok (s', t', l).
  Proof. unfold gen_create. destruct (mutate_catalog d o st t) as [[[a b] c]|]; intros [= -> ->]. eauto. Qed.

  Lemma synchronize_reaches w w' l s F :
    drops_all o -> cat_wf d t -> cat_wf d s -> cat_compat d s t -> (forall e, replaced s t e -> ~ In (parked e) (cat_keys s)) ->
    apart s F -> apart t F -> w_db w = plus_cat d s F -> discover X (w_db w) mods = (s, true) ->
    synchronize d o (engine_of d) X None mods (Ok t) w = (w', true, l) -> w_db w' = plus_cat d t F /\ (l <> [] -> Permutation t (w_state w')).
  Proof.
    intros Ho Wt Ws C HP As At Ew Hd H. unfold synchronize in H. destruct (gen_create d o [] (Ok t)) as [t' [l0|]] eqn:G; [|discriminate].
    apply gen_create_ok in G as (s0 & G). assert (Pt : Permutation t t').
    { apply mutate_catalog_parts in G as (_ & Pt & _); [exact Pt|constructor|exact (cw_names _ _ Wt)]. }
    rewrite Hd in H. cbn [negb] in H. unfold gen_mutate in H. destruct (mutate_catalog d o s t') as [[[s' t''] l1]|e] eqn:M; [|discriminate].
    assert (E : exec_all (engine_of d) l1 (w_db w) = Some (plus_cat d t F)).
    { rewrite Ew, (plus_perm d t t' F Wt Pt). eapply mutation_frame; [exact M|exact Ho|exact Ws|exact (wf_perm d t t' Pt Wt)| | |exact As|exact (apart_perm t t' F Pt At)].
      - eapply compat_perm; [reflexivity|exact Pt|exact C].
      - intros e He. apply HP. eapply replaced_perm; [reflexivity|exact Pt|exact He]. }
    destruct l1 as [|st l1].
    - injection H as <- <-. simpl in E. injection E as E. simpl. split; [exact E|tauto].
    - rewrite (exec_upto_all _ _ _ _ E) in H. injection H as <- <-. simpl. split; [reflexivity|]. intros _. rewrite Pt. apply sorted_perm.
      rewrite <- Pt. exact (cw_names _ _ Wt).
  Qed.
  Lemma synchronize_again_at w :
    cat_wf d t -> sees_at X mods t (w_db w) ->
    (d = DMySQL -> forall n x c, In n t -> In x (n_tables n) -> In c (t_columns x) -> exists m, mysql_comment (c_desc c) = Ok m) ->
    (exists t' l0, gen_create d o [] (Ok t) = (t', Ok l0)) ->
    exists st, synchronize d o (engine_of d) X None mods (Ok t) w = (World st (w_db w), true, []).
  Proof.
    intros Wt Hs HM (t' & l0 & G). unfold synchronize. rewrite G. apply gen_create_ok in G as (s0 & G).
    assert (Kt := wf_keyed d t Wt). assert (Pt : Permutation t t').
    { apply mutate_catalog_parts in G as (_ & Pt & _); [exact Pt|constructor|exact (cw_names _ _ Wt)]. }
    destruct Hs as (c & Hd & Kc & Ec).
    rewrite Hd. cbn [negb]. unfold gen_mutate.
    assert (Nt : ~ circular t). { unfold mutate_catalog in G. destruct (cat_sort []); simpl in G; [|discriminate]. destruct (cat_sort t) eqn:S; simpl in G; [|discriminate]. eapply sort_not_circular; [exact (cw_names _ _ Wt)|exact S]. }
    destruct (mutation_noop_ok d o c t') as (c' & t'' & M).
    - exact Kc.
    - exact (keyed_perm t t' Pt Kt).
    - intros Z. apply Nt. exact (circular_eqb c t Kc Kt Ec Z).
    - intros Z. apply Nt. eapply circular_perm; [symmetry; exact Pt|exact Z].
    - intros Hd' n x In_ Ix. destruct (cat_eqb_parts c t Kc Kt Ec) as [A _]. destruct (A n In_) as (m & Im & _ & E). apply ns_eqb_split in E as (_ & _ & _ & E).
      assert (Kn := ck_ns _ Kc n In_). assert (Km := ck_ns _ Kt m Im).
      destruct (od_parts t_key table_eqb _ _ x (nk_tables _ Kn) (nk_tables _ Km) E Ix) as (y & Iy & Exy). apply table_same in Exy as (_ & P & _); [|now apply (nk_table _ Kn)|now apply (nk_table _ Km)].
      intros cc Icc. apply (HM Hd' m y cc Im Iy). eapply Permutation_in; eauto.
    - rewrite <- (cat_eqb_perm_r c t t' Kt Pt). exact Ec.
    - rewrite M. eexists. reflexivity.
  Qed.
  Lemma synchronize_again w F :
    cat_wf d t -> sees d X mods t -> apart t F -> (forall k x, db_objs F !! k = Some x -> ~ In (fst k) mods) ->
    (d = DMySQL -> forall n x c, In n t -> In x (n_tables n) -> In c (t_columns x) -> exists m, mysql_comment (c_desc c) = Ok m) ->
    w_db w = plus_cat d t F -> (exists t' l0, gen_create d o [] (Ok t) = (t', Ok l0)) ->
    exists st, synchronize d o (engine_of d) X None mods (Ok t) w = (World st (w_db w), true, []).
  Proof.
    intros Wt Hs At Fm HM Ew G. apply synchronize_again_at; [exact Wt| |exact HM|exact G]. apply (Hs (w_db w)).
    - rewrite Ew. now apply plus_has.
    - intros k x Hk Im. rewrite Ew in Hk. destruct (in_dec (fun a b => decide (a = b)) k (cat_keys t)) as [I|I]; [exact I|]. rewrite plus_lookup_out in Hk by assumption. destruct (Fm k x Hk Im).
  Qed.
End Sync.

Lemma merge_one_names a n m : base.NoDup (map n_name a) -> cat_merge a [n] = Ok m -> base.NoDup (map n_name m).
Proof.
  intros N H. rewrite cat_merge_gm in H. assert (W1 : List.NoDup (map n_name [n])) by (constructor; [intros []|constructor]).
  destruct (gm_keys n_name ns_merge ns_key [n] a m (proj1 (NoDup_ListNoDup _) N) W1 H) as (_ & W & _). now apply NoDup_ListNoDup.
Qed.
Lemma discover_names X D mods : forall st, base.NoDup (map n_name st) -> base.NoDup (map n_name (fst (discover_into X D mods st))).
Proof.
  induction mods as [|m mods IH]; intros st N; [exact N|]. cbn [discover_into]. destruct (X D m) as [n|]; [|exact N]. destruct (cat_merge st [n]) as [st'|] eqn:E; [|exact N].
  apply IH. eapply merge_one_names; eauto.
Qed.
Lemma synchronize_failed d o E X fault mods target w w' l :
  synchronize d o E X fault mods target w = (w', false, l) ->
  (w_state w' = [] \/ Permutation (fst (discover X (w_db w) mods)) (w_state w')) /\
  exists k, exec_all E (firstn k l) (w_db w) = Some (w_db w').
Proof.
  intros H. unfold synchronize in H. destruct (gen_create d o [] target) as [t' [l0|e]] eqn:G.
  2:{ injection H as <- <-. simpl. split; [|exists 0; reflexivity]. left. apply gen_create_err in G; [|constructor]. now apply Permutation_nil in G. }
  destruct (discover X (w_db w) mods) as [s found] eqn:Hd.
  assert (Ns : base.NoDup (map n_name s)). { assert (Z := discover_names X (w_db w) mods [] (NoDup_nil_2)). unfold discover in Hd. rewrite Hd in Z. exact Z. }
  destruct found; cbn [negb] in H.
  2:{ injection H as <- <-. simpl. split; [right; reflexivity|exists 0; reflexivity]. }
  assert (Pm := gen_mutate_state d o s t' Ns). destruct (gen_mutate d o s t') as [s' [[|x l1]|e]]; cbn [fst] in Pm.
  - discriminate.
  - destruct (exec_upto E fault (x :: l1) (w_db w)) as [D' [|]] eqn:Xe; [discriminate|]. injection H as <- <-. simpl w_state. simpl fst. split; [right; exact Pm|].
    destruct (exec_upto_fault E fault (x :: l1) (w_db w)) as [k Hk]. exists k. rewrite Hk, Xe. reflexivity.
  - injection H as <- <-. simpl. split; [right; exact Pm|exists 0; reflexivity].
Qed.
