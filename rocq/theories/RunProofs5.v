(** DROP scripts keep the schema consistent after every statement. *)
From Verif Require Import PyStr QuoteModel ObjectDict ObjectDictSpec ObjectDictProofs Types Objects SqlAst Ddl Mutate TopoSpec SortSpec DbSpec CatSpec MutSpec RefSpec DbLemmas EqProofs TabProofs1 TabProofs2 NsProofs1 NsProofs2 NsProofs3 NsProofs4 NsProofs5 CatProofs1 CatProofs2 CatProofs3 CatProofs4 CatProofs5 SortProofs RunProofs1 RunProofs2 RunProofs3 RunProofs4.
From stdpp Require Import gmap strings.
Open Scope list_scope.

Lemma nodup_map_inj {A B} (f : A -> B) l x y : base.NoDup (map f l) -> In x l -> In y l -> f x = f y -> x = y.
Proof.
  induction l as [|z l IH]; intros N Ix Iy E; [destruct Ix|]. simpl in N. apply NoDup_cons in N as [N1 N2]. rewrite elem_of_list_In in N1.
  destruct Ix as [->|Ix], Iy as [->|Iy]; auto.
  - exfalso. apply N1. rewrite E. now apply in_map.
  - exfalso. apply N1. rewrite <- E. now apply in_map.
Qed.

Section Okp.
  Variable D : db.
  Definition clears (l : list stmt) (s : stmt) : Prop := forall D1, done D l D1 -> db_ok D1 -> clear_for s D1.
  Definition okp (pre l : list stmt) : Prop := forall l1 s l2, l = l1 ++ s :: l2 -> clears (pre ++ l1) s.
  Lemma clears_incl l l' s : incl l l' -> clears l s -> clears l' s.
  Proof. intros I H D1 G. apply H. destruct G as [G1 G2 G3 G4]. constructor; eauto. Qed.
  Lemma okp_all pre l : (forall s, In s l -> clears pre s) -> okp pre l.
  Proof. intros H l1 s l2 E. eapply clears_incl; [|apply H]; [apply incl_appl, incl_refl|]. rewrite E. apply in_or_app. right. now left. Qed.
  Lemma okp_nil pre : okp pre [].
  Proof. intros l1 s l2 E. destruct l1; discriminate. Qed.
  Lemma okp_app pre a b : okp pre a -> okp (pre ++ a) b -> okp pre (a ++ b).
  Proof.
    intros Ha Hb l1 s l2 E. apply app_split in E as [(r & -> & ->)|(r & -> & ->)].
    - now apply (Ha l1 s r).
    - rewrite app_assoc. now apply (Hb r s l2).
  Qed.
  Lemma okp_flat {A} pre (f : A -> list stmt) xs :
    (forall x1 x x2, xs = x1 ++ x :: x2 -> okp (pre ++ flat_map f x1) (f x)) -> okp pre (flat_map f xs).
  Proof.
    revert pre. induction xs as [|x xs IH]; intros pre H; [apply okp_nil|]. cbn [flat_map]. apply okp_app.
    - assert (Z := H [] x xs eq_refl). simpl in Z. now rewrite app_nil_r in Z.
    - apply IH. intros x1 y x2 ->. rewrite <- app_assoc. exact (H (x :: x1) y x2 eq_refl).
  Qed.
  Lemma okp_map {A} pre (f : A -> stmt) xs :
    (forall x1 x x2, xs = x1 ++ x :: x2 -> clears (pre ++ map f x1) (f x)) -> okp pre (map f xs).
  Proof.
    intros H l1 s l2 E. apply map_eq_app in E as (a & b & -> & <- & E). destruct b as [|x b]; [discriminate|]. injection E as <- _. now apply (H a x b).
  Qed.
End Okp.

Lemma want_cols_in d cs n c : want_cols d cs !! n = Some c -> exists k, In k cs /\ c_type k = dc_type c.
Proof.
  unfold want_cols. intros H. apply elem_of_list_to_map_2, elem_of_list_In, in_map_iff in H as (k & [= <- <-] & Ik). exists k. auto.
Qed.
Lemma want_members_in ms n t : want_members ms !! n = Some t -> exists m, In m ms /\ m_type m = t.
Proof. unfold want_members. intros H. apply elem_of_list_to_map_2, elem_of_list_In, in_map_iff in H as (m & [= <- <-] & Im). eauto. Qed.
Lemma want_cons_in ks n k : want_cons ks !! n = Some k -> In k ks /\ k_name k = n /\ In k (List.filter is_alter ks).
Proof. unfold want_cons. intros H. apply elem_of_list_to_map_2, elem_of_list_In, in_map_iff in H as (m & [= <- <-] & Im). split; [|auto]. now apply filter_In in Im. Qed.
Lemma alters_frame E l D D1 k : exec_all E l D = Some D1 -> (forall s, In s l -> exists q acts, s = SAlterTable q acts /\ key_of q <> k) -> db_objs D1 !! k = db_objs D !! k.
Proof.
  revert D. induction l as [|s l IH]; intros D X H; [now injection X as <-|]. destruct (H s (or_introl eq_refl)) as (q & acts & -> & Nq).
  cbn [exec_all exec] in X. destruct (upd_table (key_of q) (exec_actions E acts) D) as [D2|] eqn:X2; [|discriminate]. cbn [mbind option_bind] in X.
  etransitivity; [apply (IH D2 X); intros; apply H; now right|]. apply upd_table_step in X2 as (t & t' & _ & _ & ->). now apply set_obj_lookup_ne.
Qed.
Lemma flat_single {A} (f : A -> list stmt) xs l1 s l2 : (forall x, length (f x) <= 1) -> flat_map f xs = l1 ++ s :: l2 ->
  exists x1 x x2, xs = x1 ++ x :: x2 /\ f x = [s] /\ l1 = flat_map f x1.
Proof.
  intros Hl. revert l1. induction xs as [|x xs IH]; intros l1 E; [destruct l1; discriminate|]. cbn [flat_map] in E. specialize (Hl x).
  apply app_split in E as [(r & E & ->)|(r & -> & E)].
  - rewrite E, app_length in Hl. simpl in Hl. assert (length l1 = 0) by lia. assert (length r = 0) by lia. destruct l1; [|discriminate]. destruct r; [|discriminate].
    exists [], x, xs. auto.
  - destruct (IH r E) as (x1 & y & x2 & -> & Ey & ->). exists (x :: x1), y, x2. auto.
Qed.

Section Drop.
  Variables (d : dialect) (c0 c : catalog) (D : db).
  Hypothesis Sort : sorted_catalog c0 c.
  Hypothesis W : cat_wf d c0.
  Hypothesis RC : refs_closed c0.
  Hypothesis HD : db_ok D.
  Hypothesis U : unused c D.
  Let perm := proj1 Sort.
  Let W1 : cat_wf d c := wf_perm d c0 c perm W.
  Let Dp := plus_cat d c D.

  Lemma in_c0 n : In n c <-> In n c0.
  Proof. split; apply Permutation_in; [now symmetry|exact perm]. Qed.

  (** an object of [Dp] is one of [D], or one of the catalog *)
  Lemma plus_cases k o : db_objs Dp !! k = Some o ->
    (db_objs D !! k = Some o /\ ~ In k (cat_keys c)) \/ exists n, In n c /\ In (k, o) (ns_objs d n).
  Proof.
    intros H. destruct (cat_objs d c !! k) as [x|] eqn:E.
    - right. assert (Z : db_objs Dp !! k = Some x) by (simpl; now apply lookup_union_Some_l). assert (x = o) by congruence. subst x. now apply cat_objs_lookup in E.
    - left. assert (N := proj1 (cat_objs_none d c k W1) E). split; [|exact N]. etransitivity; [|exact H]. symmetry. exact (plus_out d c D W1 k N).
  Qed.
  Lemma tk_in n x : In n c -> In x (n_tables n) -> In (key_of (t_name x)) (cat_keys c).
  Proof. intros I Ix. apply in_cat_keys. exists n. split; [exact I|]. apply in_keys. right. right. exact (in_map tk _ _ Ix). Qed.
  Lemma sk_in n x : In n c -> In x (n_structs n) -> In (key_of (s_name x)) (cat_keys c).
  Proof. intros I Ix. apply in_cat_keys. exists n. split; [exact I|]. apply in_keys. right. left. exact (in_map sk _ _ Ix). Qed.
  Lemma ek_in n x : In n c -> In x (n_enums n) -> In (key_of (e_name x)) (cat_keys c).
  Proof. intros I Ix. apply in_cat_keys. exists n. split; [exact I|]. apply in_keys. left. exact (in_map ek _ _ Ix). Qed.

  (** what is left of an object *)
  Lemma left_over D1 k o : shrinks Dp D1 -> db_objs D1 !! k = Some o ->
    (exists o0, db_objs D !! k = Some o0 /\ shrink (Some o0) (Some o)) \/ exists n o0, In n c /\ In (k, o0) (ns_objs d n) /\ shrink (Some o0) (Some o).
  Proof.
    intros [_ S] H. specialize (S k). rewrite H in S. destruct (db_objs Dp !! k) as [o0|] eqn:E; [|destruct S].
    apply plus_cases in E as [[E _]|(n & I & E)]; [left; exists o0; auto|right; exists n, o0; auto].
  Qed.
  Lemma outside_fk k o0 o q : db_objs D !! k = Some o0 -> shrink (Some o0) (Some o) -> In (key_of q) (cat_keys c) -> ~ fk_to (key_of q) o.
  Proof.
    intros H S Iq F. destruct o as [| |tb]; try exact F. destruct o0 as [| |tb0]; try exact S. destruct S as (_ & _ & S). destruct F as (n & a & cs & rt & rc & Hc & Ek).
    apply S in Hc. destruct (HD k _ H) as [[_ O] _]. destruct (O _ _ Hc) as [(_ & t & Ht & _) _]. assert (Z := proj1 U _ Iq). rewrite Ek in Ht. congruence.
  Qed.
  Lemma outside_type k o0 o q : db_objs D !! k = Some o0 -> shrink (Some o0) (Some o) -> In (key_of q) (cat_keys c) -> ~ mentions_type (key_of q) o.
  Proof.
    intros H S Iq F. assert (Z := proj1 U _ Iq). destruct (HD k _ H) as [O _]. destruct o as [|ms cm|tb]; [exact F| |]; destruct o0 as [|ms0 cm0|tb0]; try exact S.
    - simpl in S. subst ms. destruct F as (n & ty & q' & Hn & Hq & Ek). destruct (O n ty Hn q' Hq) as (x & Hx & _). rewrite Ek in Hx. congruence.
    - destruct S as (S & _). destruct F as (n & cc & q' & Hn & Hq & Ek). rewrite S in Hn. destruct (proj1 O n cc Hn q' Hq) as (x & Hx & _). rewrite Ek in Hx. congruence.
  Qed.

  Lemma flat_tables : cat_drop_constraints c = flat_map drop_constraints (flat_map n_tables c).
  Proof. unfold cat_drop_constraints, ns_drop_constraints. clear. induction c as [|n r IH]; [reflexivity|]. cbn [flat_map]. now rewrite flat_map_app, IH. Qed.
  Lemma nodup_tk : base.NoDup (map tk (flat_map n_tables c)).
  Proof.
    assert (N := nodup_keys d c W1). unfold cat_keys in N. clear - N. induction c as [|n r IH]; [constructor|]. cbn [flat_map] in *. rewrite map_app in *.
    apply NoDup_app in N as (N1 & N2 & N3). apply NoDup_app. split; [|split].
    - unfold ns_names in N1. rewrite !map_app, !map_map in N1. apply NoDup_app in N1 as (_ & _ & N1). apply NoDup_app in N1 as (_ & _ & N1). exact N1.
    - intros k Hk Hr. apply (N2 k).
      + rewrite elem_of_list_In in *. apply in_keys. right. right. exact Hk.
      + rewrite elem_of_list_In in *. apply in_map_iff in Hr as (x & <- & Ix). apply in_flat_map in Ix as (m & Im & Ix). unfold tk. apply in_map. apply in_flat_map. exists m. split; [exact Im|].
        unfold ns_names. apply in_or_app. right. apply in_or_app. right. now apply in_map.
    - now apply IH.
  Qed.

  (** dropping the constraints *)
  Lemma cons_clear l1 s l2 D1 : cat_drop_constraints c = l1 ++ s :: l2 -> exec_all (engine_of d) l1 Dp = Some D1 -> shrinks Dp D1 -> clear_for s D1.
  Proof.
    intros E X S. rewrite flat_tables in E. apply flat_single in E as (x1 & x & x2 & Ex & Es & ->); [|intros y; unfold drop_constraints; destruct (table_constraints y); simpl; lia].
    assert (Ix : In x (flat_map n_tables c)) by (rewrite Ex; apply in_or_app; right; now left). apply in_flat_map in Ix as (n & In_ & Ix).
    assert (Hx : db_objs D1 !! tk x = Some (OTable (want_tab d x))).
    { etransitivity; [eapply alters_frame; [exact X|]|].
      - intros s' Hs. apply in_flat_map in Hs as (y & Iy & Hs). unfold drop_constraints in Hs. destruct (table_constraints y); [destruct Hs|]. destruct Hs as [<-|[]]. do 2 eexists. split; [reflexivity|].
        assert (N := nodup_tk). rewrite Ex, map_app in N. apply NoDup_app in N as (_ & N & _). intros Z. apply (N (tk y)).
        + apply elem_of_list_In. now apply in_map.
        + apply elem_of_list_In. left. symmetry. exact Z.
      - apply (plus_in d c D W1 n); [exact In_|]. apply in_ns_objs. right. right. eauto. }
    unfold drop_constraints in Es. destruct (table_constraints x) as [|k0 ks] eqn:Ek; [discriminate|]. rewrite <- Ek in Es. clear Ek. injection Es as <-. split.
    - intros m Hm. apply in_map_iff in Hm as (k & [= <-] & Ik). exists (want_tab d x). split; [exact Hx|]. simpl.
      destruct (want_cons (t_constraints x) !! k_name k) eqn:Z; [eauto|]. exfalso. unfold want_cons in Z. apply not_elem_of_list_to_map in Z. apply Z. apply elem_of_list_In, in_map_iff.
      exists (k_name k, k). split; [reflexivity|]. apply in_map_iff. exists k. auto.
    - intros k tb m a cs rt rc Hk Hc Er. exists (want_tab d x). split; [exact Hx|]. simpl.
      destruct (left_over D1 k _ S Hk) as [(o0 & H0 & S0)|(n' & o0 & I' & H0 & S0)].
      + exfalso. eapply (outside_fk k o0 (OTable tb) (t_name x)); [exact H0|exact S0|exact (tk_in n x In_ Ix)|]. do 5 eexists. split; [exact Hc|exact Er].
      + apply in_ns_objs in H0 as [(e & _ & _ & ->)|[(e & _ & _ & ->)|(y & Iy & Ey & ->)]]; try contradiction. destruct S0 as (_ & _ & S0). apply S0 in Hc. simpl in Hc. apply want_cons_in in Hc as (Hc & _).
        destruct (rc_foreign _ RC n' y a cs rt rc (proj1 (in_c0 n') I') Iy Hc) as (_ & m' & z & Im' & Iz & Ez & Ep). apply in_c0 in Im'.
        assert (E1 : m' = n). { apply (ns_unique d c); auto. assert (A1 := nw_scope _ _ (cw_ns _ _ W1 m' Im') (t_name z)). assert (A2 := nw_scope _ _ (cw_ns _ _ W1 n In_) (t_name x)).
          rewrite <- A1, <- A2, Ez, Er; [reflexivity| |]; unfold ns_names; apply in_or_app; right; apply in_or_app; right; now apply in_map. }
        subst m'. assert (E2 : OTable (want_tab d z) = OTable (want_tab d x)).
        { assert (B1 := plus_in d c D W1 n (tk z) (OTable (want_tab d z)) In_). assert (B2 := plus_in d c D W1 n (tk x) (OTable (want_tab d x)) In_).
          assert (B3 : tk z = tk x) by (unfold tk; congruence). rewrite B3 in B1. enough (Some (OTable (want_tab d z)) = Some (OTable (want_tab d x))) by congruence.
          rewrite <- B1, <- B2; [reflexivity| |]; apply in_ns_objs; right; right; eauto. }
        injection E2 as _ E2 _ _. congruence.
  Qed.

  Lemma table_clear n x pre : incl (cat_drop_constraints c) pre -> In n c -> In x (n_tables n) -> clears Dp pre (SDropTable (t_name x)).
  Proof.
    intros Hp In_ Ix D1 G H1 k o Ho Nk F. destruct (left_over D1 k o (dn_shrinks _ _ _ G) Ho) as [(o0 & H0 & S0)|(n' & o0 & I' & H0 & S0)].
    - eapply outside_fk; [exact H0|exact S0| |exact F]. exact (tk_in n x In_ Ix).
    - apply in_ns_objs in H0 as [(e & _ & _ & ->)|[(e & _ & _ & ->)|(y & Iy & Ey & ->)]]; destruct o as [| |tb]; try contradiction.
      destruct F as (m & a & cs & rt & rc & Hc & _). destruct S0 as (_ & _ & S0). assert (Hw := S0 _ _ Hc). simpl in Hw. apply want_cons_in in Hw as (_ & Em & Hw).
      subst k. assert (Z := dn_cons _ _ _ G (t_name y) (map k_name (table_constraints y)) tb m). rewrite Z in Hc; [discriminate| | |exact Ho].
      + apply Hp. rewrite flat_tables. apply in_flat_map. exists y. split; [apply in_flat_map; eauto|]. unfold drop_constraints, table_constraints in *. rewrite map_map.
        destruct (List.filter is_alter (t_constraints y)); [destruct Hw|]. now left.
      + rewrite <- Em. apply in_map. exact Hw.
  Qed.

  Lemma type_key_ns n q q' m : In n c -> In m c -> In q (ns_names n) -> type_of m q' -> key_of q' = key_of q -> m = n.
  Proof.
    intros I Im Iq Ht E. apply (ns_unique d c); auto. rewrite <- (nw_scope _ _ (cw_ns _ _ W1 n I) q Iq), <- E.
    destruct Ht as [(e & Ie & Ee)|(x & Ix & Ee)]; rewrite <- Ee; symmetry; apply (nw_scope _ _ (cw_ns _ _ W1 m Im)); unfold ns_names; apply in_or_app; [left|right; apply in_or_app; left]; now apply in_map.
  Qed.
  (** a namespace that uses types of [n] comes later in the sorted catalog *)
  Lemma later r1 n r2 m ty q q' : rev c = r1 ++ n :: r2 -> In m c -> In q (ns_names n) -> In ty (types_of m) -> key_of q' = key_of q -> other_type c0 m ty q' -> In m r1.
  Proof.
    intros E Im Iq It Ek (Hu & m' & Im' & Nm & Hs & Ht). apply in_c0 in Im'. assert (In_ : In n c) by (apply in_rev; rewrite E; apply in_or_app; right; now left).
    assert (m' = n) by (eapply type_key_ns; eauto). subst m'.
    assert (Dp' : depends c0 (n_name m) (n_name n)).
    { split; [congruence|]. exists m, n, q'. split; [now apply in_c0|]. split; [now apply in_c0|]. split; [reflexivity|]. split; [reflexivity|]. split; [|exact Hs].
      unfold types_of in It. apply in_app_or in It as [It|It]; apply in_flat_map in It as (x & Ix & It); apply in_map_iff in It as (y & <- & Iy).
      - eapply uses_member; eauto.
      - eapply uses_column; eauto. }
    assert (Ec : c = rev r2 ++ n :: rev r1) by (rewrite <- (rev_involutive c), E, rev_app_distr; simpl; now rewrite <- app_assoc).
    rewrite Ec in Im. apply in_app_or in Im as [Im|[->|Im]]; [|contradiction|now apply in_rev].
    exfalso. apply in_split in Im as (a & b & Eb).
    destruct (proj2 Sort a m (b ++ n :: rev r1)) with (b := n_name n) as (z & Iz & Ez); [rewrite Ec, Eb, <- app_assoc; reflexivity|exact Dp'|].
    assert (N := cw_names _ _ W1). rewrite Ec, Eb in N. rewrite map_app in N. apply NoDup_app in N as (_ & N & _). apply (N (n_name n)).
    - apply elem_of_list_In. rewrite <- Ez. apply in_map. apply in_or_app. now left.
    - apply elem_of_list_In. now left.
  Qed.

  (** [q] is no longer mentioned when the objects that use it are gone *)
  Lemma type_clear n q r1 r2 pre : rev c = r1 ++ n :: r2 -> In q (map e_name (n_enums n) ++ map s_name (n_structs n)) ->
    incl (flat_map drop_objects r1 ++ map drop_table (rev (n_tables n))) pre ->
    (forall x1 x x2, n_structs n = x1 ++ x :: x2 -> (exists e, In e (n_enums n) /\ key_of (e_name e) = key_of q) \/ (exists y, In y x1 /\ key_of (s_name y) = key_of q) ->
       In (drop_struct x) pre) -> clears Dp pre (SDropType q).
  Proof.
    intros E Iq Hp Hs D1 G H1 k o Ho Nk F. assert (In_ : In n c) by (apply in_rev; rewrite E; apply in_or_app; right; now left).
    assert (Iq' : In q (ns_names n)) by (unfold ns_names; rewrite app_assoc; apply in_or_app; now left).
    assert (Iqk : In (key_of q) (cat_keys c)) by (apply in_cat_keys; exists n; split; [exact In_|now apply in_map]).
    destruct (left_over D1 k o (dn_shrinks _ _ _ G) Ho) as [(o0 & H0 & S0)|(m & o0 & Im & H0 & S0)].
    { eapply outside_type; [exact H0|exact S0|exact Iqk|exact F]. }
    assert (R1 : forall x, In m r1 -> In x (n_tables m) -> In (SDropTable (t_name x)) pre).
    { intros x Ir Ix. apply Hp. apply in_or_app. left. apply in_flat_map. exists m. split; [exact Ir|]. unfold drop_objects. apply in_or_app. left. apply (in_map drop_table). now apply in_rev in Ix. }
    assert (R2 : forall x, In m r1 -> In x (n_structs m) -> In (SDropType (s_name x)) pre).
    { intros x Ir Ix. apply Hp. apply in_or_app. left. apply in_flat_map. exists m. split; [exact Ir|]. unfold drop_objects. apply in_or_app. right. apply in_or_app. left. apply (in_map drop_struct). now apply in_rev in Ix. }
    apply in_ns_objs in H0 as [(e & _ & _ & ->)|[(x & Ix & Ek & ->)|(x & Ix & Ek & ->)]]; destruct o as [|ms cm|tb]; try contradiction; subst k.
    - simpl in S0. subst ms. destruct F as (mn & ty & q' & Hn & Hq & Eq). apply want_members_in in Hn as (mm & Imm & <-).
      assert (It : In (m_type mm) (types_of m)). { unfold types_of. apply in_or_app. left. apply in_flat_map. exists x. split; [exact Ix|now apply in_map]. }
      apply in_split in Ix as Hx. destruct Hx as (x1 & x2 & Ex).
      assert (Hd : In (SDropType (s_name x)) pre).
      { destruct (rc_member _ RC m x1 x x2 mm q' (proj1 (in_c0 m) Im) Ex Imm Hq) as [(e & Ie & Ee)|[(y & Iy & Ey)|Hot]].
        - assert (m = n) by (eapply (type_key_ns n q q' m); eauto; left; eauto). subst m. apply (Hs x1 x x2 Ex). left. exists e. split; [exact Ie|congruence].
        - assert (m = n). { eapply (type_key_ns n q q' m); eauto. right. exists y. split; [rewrite Ex; apply in_or_app; now left|exact Ey]. } subst m.
          apply (Hs x1 x x2 Ex). right. exists y. split; [exact Iy|congruence].
        - apply R2; [|exact Ix]. eapply later; eauto. }
      assert (Z := dn_type _ _ _ G _ Hd). unfold sk in Ho. congruence.
    - destruct S0 as (Sc & _). destruct F as (cn & cc & q' & Hn & Hq & Eq). rewrite Sc in Hn. simpl in Hn. apply want_cols_in in Hn as (kc & Ikc & Et). rewrite <- Et in Hq.
      assert (It : In (c_type kc) (types_of m)). { unfold types_of. apply in_or_app. right. apply in_flat_map. exists x. split; [exact Ix|now apply in_map]. }
      assert (Hd : In (SDropTable (t_name x)) pre).
      { destruct (rc_column _ RC m x kc q' (proj1 (in_c0 m) Im) Ix Ikc Hq) as [Ht|Hot].
        - assert (m = n) by (eapply (type_key_ns n q q' m); eauto). subst m. apply Hp. apply in_or_app. right. apply (in_map drop_table). now apply in_rev in Ix.
        - apply R1; [|exact Ix]. eapply later; eauto. }
      assert (Z := dn_table _ _ _ G _ Hd). unfold tk in Ho. congruence.
  Qed.

  Lemma objects_ok pre : incl (cat_drop_constraints c) pre -> okp Dp pre (flat_map drop_objects (rev c)).
  Proof.
    intros Hp. apply okp_flat. intros r1 n r2 E. assert (In_ : In n c) by (apply in_rev; rewrite E; apply in_or_app; right; now left).
    unfold drop_objects. apply okp_app; [|apply okp_app].
    - apply okp_all. intros s Hs. apply in_map_iff in Hs as (x & <- & Ix). apply in_rev in Ix. apply (table_clear n x); [|exact In_|exact Ix]. now apply incl_appl.
    - apply okp_map. intros x1 x x2 Ex. assert (Ex' : n_structs n = rev x2 ++ x :: rev x1) by (rewrite <- (rev_involutive (n_structs n)), Ex, rev_app_distr; simpl; now rewrite <- app_assoc).
      assert (Nk := nw_keys _ _ (cw_ns _ _ W1 n In_)).
      apply (type_clear n (s_name x) r1 r2); [exact E| | |].
      + apply in_or_app. right. apply in_map. rewrite Ex'. apply in_or_app. right. now left.
      + apply incl_appl. intros s Hs. apply in_app_or in Hs as [Hs|Hs]; [apply in_or_app; left; apply in_or_app; now right|apply in_or_app; now right].
      + intros y1 y y2 Ey Hy. apply in_or_app. right. apply in_map. apply in_rev.
        (* [y] comes after [x] in the namespace, so it is dropped first *)
        assert (Hy' : exists z, In z y1 /\ key_of (s_name z) = key_of (s_name x)).
        { destruct Hy as [(e & Ie & Ee)|Hy]; [|exact Hy]. exfalso. unfold ns_names in Nk. rewrite !map_app in Nk. apply NoDup_app in Nk as (_ & Nk & _).
          apply (Nk (local_id (e_name e))); rewrite elem_of_list_In; [apply in_map; now apply in_map|]. apply in_or_app. left.
          assert (El : local_id (e_name e) = local_id (s_name x)) by (unfold key_of in Ee; congruence). rewrite El. apply in_map, in_map. rewrite Ex'. apply in_or_app. right. now left. }
        destruct Hy' as (z & Iz & Ez).
        assert (Nl : base.NoDup (map (fun x => local_id (s_name x)) (n_structs n))).
        { unfold ns_names in Nk. rewrite !map_app in Nk. apply NoDup_app in Nk as (_ & _ & Nk). apply NoDup_app in Nk as (Nk & _). rewrite map_map in Nk. exact Nk. }
        assert (Hzx : z = x).
        { apply (nodup_map_inj (fun x => local_id (s_name x)) (n_structs n)); auto.
          - rewrite Ey. apply in_or_app. now left.
          - rewrite Ex'. apply in_or_app. right. now left.
          - unfold key_of in Ez. congruence. }
        subst z. apply in_split in Iz as (a & b & Ez'). rewrite Ez' in Ey.
        assert (Hr : rev x1 = b ++ y :: y2).
        { rewrite Ex' in Ey, Nl. rewrite <- app_assoc in Ey. simpl in Ey. clear - Ey Nl. revert a Ey Nl. generalize (rev x2). intros l; induction l as [|w l IH]; intros a Ey Nl.
          - destruct a as [|w a]; simpl in Ey; [now injection Ey|]. injection Ey as E1 E2. exfalso. simpl in Nl. apply NoDup_cons in Nl as [Nl _]. apply Nl. rewrite E2. apply elem_of_list_In, in_map_iff. exists x. split; [reflexivity|]. apply in_or_app. right. now left.
          - destruct a as [|w' a]; simpl in Ey; injection Ey as E1 E2; [|simpl in Nl; apply NoDup_cons in Nl as [_ Nl]; eapply IH; eauto].
            exfalso. subst w. simpl in Nl. apply NoDup_cons in Nl as [Nl _]. apply Nl. apply elem_of_list_In, in_map_iff. exists x. split; [reflexivity|]. apply in_or_app. right. now left. }
        rewrite Hr. apply in_or_app. right. now left.
    - apply okp_all. intros s Hs. apply in_map_iff in Hs as (e & <- & Ie). apply in_rev in Ie. apply (type_clear n (e_name e) r1 r2); [exact E| | |].
      + apply in_or_app. left. now apply in_map.
      + apply incl_appl. intros s Hs. apply in_app_or in Hs as [Hs|Hs]; [apply in_or_app; left; apply in_or_app; now right|apply in_or_app; now right].
      + intros x1 x x2 Ex _. apply in_or_app. right. apply in_map. rewrite <- in_rev. rewrite Ex. apply in_or_app. right. now left.
  Qed.

  Lemma schemas_ok pre : incl (flat_map drop_objects (rev c)) pre -> okp Dp pre (flat_map (drop_schema d) (rev c)).
  Proof.
    intros Hp. apply okp_all. intros s Hs. apply in_flat_map in Hs as (n & In_ & Hs). apply in_rev in In_. unfold drop_schema in Hs. destruct (n_name n) as [|ch r] eqn:En; [destruct Hs|].
    destruct Hs as [<-|[]]. intros D1 G H1 k Ek. destruct (db_objs D1 !! k) as [o|] eqn:Eo; [|reflexivity]. exfalso.
    destruct (left_over D1 k o (dn_shrinks _ _ _ G) Eo) as [(o0 & H0 & _)|(m & o0 & Im & H0 & _)].
    - assert (Z := schema_free c D U HD n k In_). assert (Z' : db_objs D !! k = None) by (apply Z; congruence). unfold okey in *. congruence.
    - assert (Rm : In m (rev c)) by now apply in_rev in Im.
      apply in_ns_objs in H0 as [(e & Ie & -> & _)|[(e & Ie & -> & _)|(e & Ie & -> & _)]].
      + assert (Z := dn_type _ _ _ G (e_name e)). unfold ek in Eo. enough (db_objs D1 !! key_of (e_name e) = None) by (unfold okey in *; congruence). apply Z. apply Hp. apply in_flat_map. exists m. split; [exact Rm|]. unfold drop_objects.
        apply in_or_app. right. apply in_or_app. right. apply (in_map drop_enum). now apply in_rev in Ie.
      + assert (Z := dn_type _ _ _ G (s_name e)). unfold sk in Eo. enough (db_objs D1 !! key_of (s_name e) = None) by (unfold okey in *; congruence). apply Z. apply Hp. apply in_flat_map. exists m. split; [exact Rm|]. unfold drop_objects.
        apply in_or_app. right. apply in_or_app. left. apply (in_map drop_struct). now apply in_rev in Ie.
      + assert (Z := dn_table _ _ _ G (t_name e)). unfold tk in Eo. enough (db_objs D1 !! key_of (t_name e) = None) by (unfold okey in *; congruence). apply Z. apply Hp. apply in_flat_map. exists m. split; [exact Rm|]. unfold drop_objects.
        apply in_or_app. left. apply (in_map drop_table). now apply in_rev in Ie.
  Qed.
End Drop.

Theorem drop_runs d c c' l D :
  cat_drop d c = Ok (c', l) -> cat_wf d c -> refs_closed c -> db_ok D -> unused c D -> db_ok (plus_cat d c D) ->
  runs (engine_of d) (cat_drop_constraints c' ++ l) (plus_cat d c D) D.
Proof.
  intros H W RC HD U HP. unfold cat_drop in H. assert (Cs := cat_sort_correct c (proj1 (NoDup_ListNoDup _) (cw_names _ _ W))).
  destruct (cat_sort c) as [c1|] eqn:E1; simpl in H; [|discriminate]. injection H as <- <-. destruct Cs as [Sort _]. assert (P := proj1 Sort).
  assert (W1 := wf_perm d c c1 P W).
  assert (U1 : unused c1 D).
  { split; [intros k; rewrite <- (keys_perm c c1 k P); apply (proj1 U)|]. intros n I. apply (proj2 U). eapply Permutation_in; [symmetry; exact P|exact I]. }
  assert (PC : plus_cat d c1 D = plus_cat d c D).
  { unfold plus_cat. rewrite (schemas_perm c c1 P). f_equal. f_equal. apply map_eq. intros k.
    assert (G : forall x, cat_objs d c1 !! k = Some x <-> cat_objs d c !! k = Some x).
    { intros x. rewrite !cat_objs_lookup by assumption. setoid_rewrite (is_ c c1 P). reflexivity. }
    destruct (cat_objs d c1 !! k) as [x|] eqn:Z1, (cat_objs d c !! k) as [y|] eqn:Z2; try reflexivity.
    - symmetry. now apply G.
    - symmetry. now apply G.
    - now apply G. }
  rewrite <- PC in *. assert (X := drop_exec d c1 D default_options W1 U1 HD).
  eapply destruction_runs; [exact HP|exact X| |].
  - intros s Hs. apply in_app_or in Hs as [Hs|Hs]; [|apply in_app_or in Hs as [Hs|Hs]].
    + unfold cat_drop_constraints, ns_drop_constraints in Hs. apply in_flat_map in Hs as (n & In_ & Hs). apply in_flat_map in Hs as (x & Ix & Hs).
      unfold drop_constraints in Hs. destruct (table_constraints x) as [|k0 ks] eqn:Ek; [destruct Hs|]. rewrite <- Ek in Hs. destruct Hs as [<-|[]]. exists (map k_name (table_constraints x)).
      split; [|now rewrite map_map]. assert (N := tw_cons _ _ (nw_table _ _ (cw_ns _ _ W1 n In_) x Ix)). unfold table_constraints. apply nodup_map_filter. exact N.
    + apply in_flat_map in Hs as (n & _ & Hs). unfold drop_objects in Hs. rewrite !in_app_iff, !in_map_iff in Hs. destruct Hs as [(x & <- & _)|[(x & <- & _)|(x & <- & _)]]; exact I.
    + apply in_flat_map in Hs as (n & _ & Hs). unfold drop_schema in Hs. destruct (n_name n); [destruct Hs|]. destruct Hs as [<-|[]]. exact I.
  - intros l1 s l2 D1 E G HD1 X1. apply app_split in E as [(r & E & _)|(r & -> & E)].
    + eapply (cons_clear d c c1 D); eauto. exact (dn_shrinks _ _ _ G).
    + assert (Hok : okp (plus_cat d c1 D) (cat_drop_constraints c1) (flat_map drop_objects (rev c1) ++ flat_map (drop_schema d) (rev c1))).
      { apply okp_app; [apply (objects_ok d c c1 D); auto; apply incl_refl|]. apply (schemas_ok d c c1 D); auto. apply incl_appr, incl_refl. }
      exact (Hok r s l2 E D1 G HD1).
Qed.
Print Assumptions drop_runs.
