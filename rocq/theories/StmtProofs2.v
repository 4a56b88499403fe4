(** Consequences of the classification of statements: protection of objects, unchanged tables, columns. *)
From Verif Require Import PyStr QuoteModel ObjectDict ObjectDictSpec ObjectDictProofs Types Objects SqlAst Ddl Mutate DbSpec CatSpec MutSpec StmtSpec EqProofs NoopProofs KeySpec SortProofs StmtProofs.
From stdpp Require Import gmap strings.
Open Scope list_scope.

(** *** drops *)
Definition is_drop_table (q : qid) (st : stmt) : Prop := st = SDropTable q.
Lemma ns_stmt_drop_table d o a b q : ns_stmt d o a b (SDropTable q) ->
  allow_drop_table o = true /\ exists x, In x (n_tables a) /\ ~ In (t_key x) (map t_key (n_tables b)) /\ t_name x = q.
Proof.
  intros [x I N T Ds|x I N T Ds|x I N T Ds|e x Ie Ne Ix Nx Eq Es|x y Ix Iy E T Ds|x y Ix Iy E T Ds|x y l Ix Iy E H I|x A I N Es|x A I N Es|x A I N Es]; try (destruct (Ds Logic.I); fail).
  - discriminate.
  - destruct (table_stmt_calm _ _ _ (mutate_table_in d x y l _ H I) Logic.I).
  - injection Es as ->. eauto.
  - discriminate.
  - destruct Es as [Es|[Es _]]; discriminate.
Qed.
Lemma ns_stmt_drop_type d o a b q : ns_stmt d o a b (SDropType q) ->
  (allow_drop_struct o = true /\ exists x, In x (n_structs a) /\ ~ In (s_key x) (map s_key (n_structs b)) /\ s_name x = q)
  \/ (allow_drop_enum o = true /\ exists e, In e (n_enums a) /\ ~ In (e_key e) (map e_key (n_enums b))
      /\ (e_name e = q \/ (rename_qid (e_name e) (deleted (local_id (e_name e))) = q /\ exists y, In y (n_tables b) /\ e_name e = t_name y))).
Proof.
  intros [x I N T Ds|x I N T Ds|x I N T Ds|e x Ie Ne Ix Nx Eq Es|x y Ix Iy E T Ds|x y Ix Iy E T Ds|x y l Ix Iy E H I|x A I N Es|x A I N Es|x A I N Es]; try (destruct (Ds Logic.I); fail).
  - discriminate.
  - destruct (table_stmt_calm _ _ _ (mutate_table_in d x y l _ H I) Logic.I).
  - discriminate.
  - injection Es as ->. left. eauto.
  - right. split; [exact A|]. exists x. split; [exact I|]. split; [exact N|]. destruct Es as [Es|[Es Y]]; injection Es as ->; auto.
Qed.
Lemma ns_stmt_drop_schema d o a b c q : ~ ns_stmt d o a b (SDropSchema c q).
Proof.
  intros [x I N T Ds|x I N T Ds|x I N T Ds|e x Ie Ne Ix Nx Eq Es|x y Ix Iy E T Ds|x y Ix Iy E T Ds|x y l Ix Iy E H I|x A I N Es|x A I N Es|x A I N Es]; try (destruct (Ds Logic.I); fail); try discriminate.
  - destruct (table_stmt_calm _ _ _ (mutate_table_in d x y l _ H I) Logic.I).
  - destruct Es as [Es|[Es _]]; discriminate.
Qed.
Lemma ns_stmt_rename d o a b q n : ns_stmt d o a b (SRenameType q n) ->
  exists e x, In e (n_enums a) /\ ~ In (e_key e) (map e_key (n_enums b)) /\ In x (n_tables b) /\ e_name e = t_name x /\ q = e_name e /\ n = deleted (e_key e).
Proof.
  intros [x I N T Ds|x I N T Ds|x I N T Ds|e x Ie Ne Ix Nx Eq Es|x y Ix Iy E T Ds|x y Ix Iy E T Ds|x y l Ix Iy E H I|x A I N Es|x A I N Es|x A I N Es]; try (destruct (Ds Logic.I); fail); try discriminate.
  - injection Es as -> ->. exists e, x. repeat split; auto.
  - destruct (table_stmt_calm _ _ _ (mutate_table_in d x y l _ H I) Logic.I).
  - destruct Es as [Es|[Es _]]; discriminate.
Qed.

Lemma drop_table_source d o s t q : cat_stmt d o s t (SDropTable q) ->
  (allow_drop_table o = true /\ exists a b x, common_ns s t a b /\ In x (n_tables a) /\ ~ In (t_key x) (map t_key (n_tables b)) /\ t_name x = q)
  \/ (allow_drop_namespace o = true /\ exists n x, removed_ns s t n /\ In x (n_tables n) /\ t_name x = q).
Proof.
  intros [n I N (c & E)|n q' I N E I' Ds|a b C H|n x acts R I E H|n x A R I E|n q' A R I E|n c A R E]; try discriminate.
  - destruct (Ds Logic.I).
  - left. apply ns_stmt_drop_table in H as (A & x & H1 & H2 & H3). eauto 10.
  - right. injection E as ->. eauto 10.
Qed.
Lemma drop_type_source d o s t q : cat_stmt d o s t (SDropType q) ->
  (allow_drop_struct o = true /\ exists a b x, common_ns s t a b /\ In x (n_structs a) /\ ~ In (s_key x) (map s_key (n_structs b)) /\ s_name x = q)
  \/ (allow_drop_enum o = true /\ exists a b e, common_ns s t a b /\ In e (n_enums a) /\ ~ In (e_key e) (map e_key (n_enums b))
       /\ (e_name e = q \/ (rename_qid (e_name e) (deleted (local_id (e_name e))) = q /\ exists y, In y (n_tables b) /\ e_name e = t_name y)))
  \/ (allow_drop_namespace o = true /\ exists n, removed_ns s t n /\ In q (map e_name (n_enums n) ++ map s_name (n_structs n))).
Proof.
  intros [n I N (c & E)|n q' I N E I' Ds|a b C H|n x acts R I E H|n x A R I E|n q' A R I E|n c A R E]; try discriminate.
  - destruct (Ds Logic.I).
  - apply ns_stmt_drop_type in H as [(A & x & H1 & H2 & H3)|(A & e & H1 & H2 & H3)]; [left; eauto 10|right; left]. split; [exact A|]. exists a, b, e. auto.
  - right. right. injection E as ->. eauto 10.
Qed.
Lemma drop_schema_source d o s t c n : cat_stmt d o s t (SDropSchema c n) ->
  allow_drop_namespace o = true /\ exists m, removed_ns s t m /\ n_name m = n.
Proof.
  intros [m I N (c' & E)|m q' I N E I' Ds|a b C H|m x acts R I E H|m x A R I E|m q' A R I E|m c' A R E]; try discriminate.
  - destruct (ns_stmt_drop_schema _ _ _ _ _ _ H).
  - injection E as <- ->. eauto.
Qed.
Lemma rename_source d o s t q n : cat_stmt d o s t (SRenameType q n) -> exists e, replaced s t e /\ q = e_name e /\ n = deleted (e_key e).
Proof.
  intros [m I N (c' & E)|m q' I N E I' Ds|a b C H|m x acts R I E H|m x A R I E|m q' A R I E|m c' A R E]; try discriminate.
  - destruct (Ds Logic.I).
  - apply ns_stmt_rename in H as (e & x & H1 & H2 & H3 & H4 & H5 & H6). exists e. split; [|auto]. destruct C as (C1 & C2 & C3). exists a, b, x. auto 10.
Qed.

(** *** names *)
Lemma key_scope d (c : catalog) n q : cat_wf d c -> In n c -> In q (ns_names n) -> fst (key_of q) = n_name n.
Proof. intros W I Q. exact (nw_scope _ _ (cw_ns _ _ W n I) q Q). Qed.
Lemma names_table n x : In x (n_tables n) -> In (t_name x) (ns_names n).
Proof. intros I. unfold ns_names. rewrite !in_app_iff, !in_map_iff. eauto. Qed.
Lemma names_struct n x : In x (n_structs n) -> In (s_name x) (ns_names n).
Proof. intros I. unfold ns_names. rewrite !in_app_iff, !in_map_iff. eauto. Qed.
Lemma names_enum n x : In x (n_enums n) -> In (e_name x) (ns_names n).
Proof. intros I. unfold ns_names. rewrite !in_app_iff, !in_map_iff. eauto. Qed.
Lemma same_ns d (c : catalog) n m q : cat_wf d c -> In n c -> In m c -> In q (ns_names n) -> In q (ns_names m) -> n = m.
Proof.
  intros W In_ Im Qn Qm. apply (nodup_inj n_name c); [apply NoDup_ListNoDup, (cw_names _ _ W)|exact In_|exact Im|].
  rewrite <- (key_scope d c n q W In_ Qn). now rewrite (key_scope d c m q W Im Qm).
Qed.
(** within a namespace a name has one kind *)
Lemma kind_table_struct d n x y : ns_wf d n -> In x (n_tables n) -> In y (n_structs n) -> local_id (t_name x) = local_id (s_name y) -> False.
Proof.
  intros W Ix Iy E. assert (N := nw_keys _ _ W). unfold ns_names in N. rewrite !map_app in N. apply NoDup_app in N as (_ & _ & N). apply NoDup_app in N as (_ & N & _).
  apply (N (local_id (s_name y))); apply elem_of_list_In; [now apply in_map, in_map|]. rewrite <- E. now apply in_map, in_map.
Qed.
Lemma kind_table_enum d n x y : ns_wf d n -> In x (n_tables n) -> In y (n_enums n) -> local_id (t_name x) = local_id (e_name y) -> False.
Proof.
  intros W Ix Iy E. assert (N := nw_keys _ _ W). unfold ns_names in N. rewrite !map_app in N. apply NoDup_app in N as (_ & N & _).
  apply (N (local_id (e_name y))); apply elem_of_list_In; [now apply in_map, in_map|]. rewrite <- E. apply in_or_app. right. now apply in_map, in_map.
Qed.
Lemma table_keys_nodup d n : ns_wf d n -> List.NoDup (map t_key (n_tables n)).
Proof.
  intros W. assert (N := nw_keys _ _ W). unfold ns_names in N. rewrite !map_app in N. apply NoDup_app in N as (_ & _ & N). apply NoDup_app in N as (_ & _ & N).
  rewrite map_map in N. now apply NoDup_ListNoDup.
Qed.
Lemma wf_keyed d x : tab_wf d x -> table_keyed x.
Proof. intros W. constructor; apply NoDup_ListNoDup; [exact (tw_cols _ _ W)|exact (tw_cons _ _ W)]. Qed.

(** Every object named by a statement is in one of the catalogs, or is the parked type of a replaced
    enumeration, or is the target of a foreign key of the target catalog. *)
Lemma parked_key e : plain (e_name e) -> key_of (rename_qid (e_name e) (deleted (local_id (e_name e)))) = parked e.
Proof. unfold parked, key_of, rename_qid, plain. destruct (e_name e) as [[n|] i|[n|] i|i]; simpl; tauto || auto. Qed.
Lemma in_cat_keys (c : catalog) n q : In n c -> In q (ns_names n) -> In (key_of q) (cat_keys c).
Proof. intros I Q. unfold cat_keys. apply in_map. apply in_flat_map. eauto. Qed.
Definition fk_target (t : catalog) (q : qid) : Prop :=
  exists n x k cs rc, In n t /\ In x (n_tables n) /\ In (CForeign k cs q rc) (t_constraints x).
Lemma target_named d o s t st q : cat_stmt d o s t st -> stmt_target st = Some q ->
  (forall a b e x, common_ns s t a b -> In e (n_enums a) -> In x (n_tables b) -> e_name e = t_name x -> plain (e_name e)) ->
  In (key_of q) (cat_keys s) \/ In (key_of q) (cat_keys t) \/ (exists e, replaced s t e /\ key_of q = parked e) \/ fk_target t q.
Proof.
  intros H T Pl. destruct H as [m I N (c' & E)|m q' I N E I' Ds|a b (C1 & C2 & C3) H|m x acts R I E H|m x A R I E|m q' A R I E|m c' A R E]; try (subst; discriminate).
  - assert (q = q') by congruence. subst q'. right. left. eapply in_cat_keys; eauto.
  - assert (Ka : forall q', In q' (ns_names a) -> In (key_of q') (cat_keys s)) by (intros q'; now apply in_cat_keys).
    assert (Kb : forall q', In q' (ns_names b) -> In (key_of q') (cat_keys t)) by (intros q'; now apply in_cat_keys).
    destruct H as [x I N T' Ds|x I N T' Ds|x I N T' Ds|e x Ie Ne Ix Nx Eq Es|x y Ix Iy E T' Ds|x y Ix Iy E T' Ds|x y l Ix Iy E H I|x A I N Es|x A I N Es|x A I N Es].
    + assert (q = t_name x) by congruence. subst. right. left. now apply Kb, names_table.
    + assert (q = s_name x) by congruence. subst. right. left. now apply Kb, names_struct.
    + assert (q = e_name x) by congruence. subst. right. left. now apply Kb, names_enum.
    + subst st. injection T as <-. left. now apply Ka, names_enum.
    + assert (q = e_name x) by congruence. subst. left. now apply Ka, names_enum.
    + destruct T' as [T'|T'].
      * assert (q = s_name x) by congruence. subst. left. now apply Ka, names_struct.
      * assert (q = s_name y) by congruence. subst. right. left. now apply Kb, names_struct.
    + apply (mutate_table_in d x y l st H) in I. clear H. rename I into H.
      assert (Kx : In (key_of (t_name x)) (cat_keys s)) by now apply Ka, names_table. assert (Ky : In (key_of (t_name y)) (cat_keys t)) by now apply Kb, names_table.
      destruct H as [(z & -> & _)|[(c & ->)|[(n & c & ->)|[(c & ->)|[(q' & cs & rows & oc & n & k & rc & -> & Z)|[(q' & c & n & k & rc & -> & Z)|(u & v & q' & _ & _ & ->)]]]]]]; injection T as <-; auto.
      * do 3 right. exists b, y, n, k, rc. auto.
      * do 3 right. exists b, y, n, k, rc. auto.
    + subst st. injection T as <-. left. now apply Ka, names_table.
    + subst st. injection T as <-. left. now apply Ka, names_struct.
    + destruct Es as [->|[-> (y & Iy & Ey)]]; injection T as <-.
      * left. now apply Ka, names_enum.
      * right. right. left. exists x. split; [exists a, b, y; auto 10|]. apply parked_key. apply (Pl a b x y); auto. split; auto.
  - subst st. injection T as <-. left. destruct R as [R _]. eapply in_cat_keys; [exact R|]. now apply names_table.
  - subst st. injection T as <-. left. destruct R as [R _]. eapply in_cat_keys; [exact R|]. now apply names_table.
  - subst st. injection T as <-. left. destruct R as [R _]. eapply in_cat_keys; [exact R|]. unfold ns_names. apply in_app_or in I as [I|I]; rewrite !in_app_iff; auto.
Qed.

(** *** statements about a table of both catalogs *)
Section Table.
  Context (d : dialect) (o : options) (s t : catalog) (a b : namespace) (x y : table).
  Context (Ws : cat_wf d s) (Wt : cat_wf d t) (C : common_ns s t a b) (Ix : In x (n_tables a)) (Iy : In y (n_tables b)) (En : t_name x = t_name y).
  Context (Pk : forall e, replaced s t e -> key_of (rename_qid (e_name e) (deleted (local_id (e_name e)))) <> key_of (t_name x)).

  Lemma table_stmt_source st : cat_stmt d o s t st -> stmt_target st = Some (t_name x) ->
    adds_rows st \/ exists l, mutate_table d x y = Ok l /\ In st l.
  Proof.
    intros H T. assert (Ca : In a s) by apply C. assert (Cb : In b t) by apply C. assert (Wa := cw_ns _ _ Ws a Ca). assert (Wb := cw_ns _ _ Wt b Cb).
    assert (Rm : forall n, removed_ns s t n -> In (t_name x) (ns_names n) -> False).
    { intros n [R1 R2] Q. assert (n = a) by (eapply (same_ns d s); eauto; now apply names_table). subst n. destruct C as (_ & C2 & C3). apply R2. rewrite C3. now apply in_map. }
    destruct H as [m I N (c' & E)|m q' I N E I' Ds|a' b' (C1 & C2 & C3) H|m z acts R I E H|m z A R I E|m q' A R I E|m c' A R E]; try (subst; discriminate).
    - exfalso. assert (q' = t_name x) by congruence. subst q'. assert (m = b) by (eapply (same_ns d t); eauto; rewrite En; now apply names_table). subst m.
      apply N. destruct C as (C1 & _ & C3). rewrite <- C3. now apply in_map.
    - assert (Ab : forall q, In q (ns_names b') -> q = t_name x -> b' = b /\ a' = a).
      { intros q Q ->. assert (Z : b' = b) by (eapply (same_ns d t); eauto; rewrite En; now apply names_table). split; [exact Z|]. subst b'.
        apply (nodup_inj n_name s); auto; [apply NoDup_ListNoDup, (cw_names _ _ Ws)|]. rewrite C3. symmetry. apply C. }
      assert (Aa : forall q, In q (ns_names a') -> q = t_name x -> b' = b /\ a' = a).
      { intros q Q ->. assert (Z : a' = a) by (eapply (same_ns d s); eauto; now apply names_table). split; [|exact Z]. subst a'.
        apply (nodup_inj n_name t); auto; [apply NoDup_ListNoDup, (cw_names _ _ Wt)|]. rewrite <- C3. apply C. }
      destruct H as [z I N T' Ds|z I N T' Ds|z I N T' Ds|e z Ie Ne Iz Nz Eq Es|z w Iz Iw E T' Ds|z w Iz Iw E T' Ds|z w l Iz Iw E H I|z A I N Es|z A I N Es|z A I N Es].
      + exfalso. assert (Q : t_name z = t_name x) by congruence. destruct (Ab _ (names_table _ _ I) Q) as [-> ->]. apply N. unfold t_key. rewrite Q. now apply (in_map t_key).
      + exfalso. assert (Q : s_name z = t_name x) by congruence. destruct (Ab _ (names_struct _ _ I) Q) as [-> ->]. apply (kind_table_struct d b y z Wb Iy I). congruence.
      + exfalso. assert (Q : e_name z = t_name x) by congruence. destruct (Ab _ (names_enum _ _ I) Q) as [-> ->]. apply (kind_table_enum d b y z Wb Iy I). congruence.
      + exfalso. subst st. injection T as Q. destruct (Aa _ (names_enum _ _ Ie) Q) as [-> ->]. apply (kind_table_enum d a x e Wa Ix Ie). congruence.
      + exfalso. assert (Q : e_name z = t_name x) by congruence. destruct (Aa _ (names_enum _ _ Iz) Q) as [-> ->]. apply (kind_table_enum d a x z Wa Ix Iz). congruence.
      + exfalso. destruct T' as [T'|T'].
        * assert (Q : s_name z = t_name x) by congruence. destruct (Aa _ (names_struct _ _ Iz) Q) as [-> ->]. apply (kind_table_struct d a x z Wa Ix Iz). congruence.
        * assert (Q : s_name w = t_name x) by congruence. destruct (Ab _ (names_struct _ _ Iw) Q) as [-> ->]. apply (kind_table_struct d b y w Wb Iy Iw). congruence.
      + assert (G : t_name z = t_name x \/ t_name w = t_name x -> adds_rows st \/ exists l, mutate_table d x y = Ok l /\ In st l).
        { intros Q. assert (Hk : b' = b /\ a' = a) by (destruct Q as [Q|Q]; [apply (Aa _ (names_table _ _ Iz) Q)|apply (Ab _ (names_table _ _ Iw) Q)]). destruct Hk as [-> ->].
          assert (Kz : t_key z = t_key x) by (unfold t_key in *; destruct Q as [Q|Q]; congruence).
          assert (Kw : t_key w = t_key y) by (unfold t_key in *; congruence).
          assert (z = x) by (apply (nodup_inj t_key (n_tables a)); auto; now apply (table_keys_nodup d)).
          assert (w = y) by (apply (nodup_inj t_key (n_tables b)); auto; now apply (table_keys_nodup d)). subst. right. eauto. }
        destruct (mutate_table_in d z w l st H I) as [(acts & -> & _)|[(c & ->)|[(n & c & ->)|[(c & ->)|[(q' & cs & rows & oc & n & k & rc & -> & Z)|[(q' & c & n & k & rc & -> & Z)|(u & v & q' & _ & _ & ->)]]]]]];
          injection T as Q; auto; left; exact Logic.I.
      + exfalso. subst st. injection T as Q. destruct (Aa _ (names_table _ _ I) Q) as [-> ->]. apply N. unfold t_key at 1. rewrite Q, En. now apply (in_map t_key).
      + exfalso. subst st. injection T as Q. destruct (Aa _ (names_struct _ _ I) Q) as [-> ->]. apply (kind_table_struct d a x z Wa Ix I). congruence.
      + exfalso. destruct Es as [->|[-> (w & Iw & Ew)]]; injection T as Q.
        * destruct (Aa _ (names_enum _ _ I) Q) as [-> ->]. apply (kind_table_enum d a x z Wa Ix I). congruence.
        * apply (Pk z); [exists a', b', w; auto 10|]. congruence.
    - exfalso. subst st. injection T as Q. apply (Rm m R). rewrite <- Q. now apply names_table.
    - exfalso. subst st. injection T as Q. apply (Rm m R). rewrite <- Q. now apply names_table.
    - exfalso. subst st. injection T as Q. apply (Rm m R). rewrite <- Q. unfold ns_names. apply in_app_or in I as [I|I]; rewrite !in_app_iff; auto.
  Qed.

  Lemma unchanged_table st : table_eqb x y = true -> cat_stmt d o s t st -> stmt_target st = Some (t_name x) -> adds_rows st.
  Proof.
    intros E H T. destruct (table_stmt_source st H T) as [A|(l & M & I)]; [exact A|]. exfalso.
    assert (Wx := nw_table _ _ (cw_ns _ _ Ws a (proj1 C)) x Ix). assert (Wy := nw_table _ _ (cw_ns _ _ Wt b (proj1 (proj2 C))) y Iy).
    rewrite (table_noop d x y l (wf_keyed _ _ Wx) (wf_keyed _ _ Wy) E M) in I. destruct I.
  Qed.
  Lemma undisturbed_column st acts act u v : cat_stmt d o s t st -> st = SAlterTable (t_name x) acts -> In act acts ->
    In u (t_columns x) -> In v (t_columns y) -> c_name u = c_name v -> c_type u = c_type v ->
    ~ In (c_name u) (map (fun c => deleted (c_name c)) (t_columns x)) -> ~ disturbs (c_name u) act.
  Proof.
    intros H -> Ia Iu Iv Nu Tu Nd. destruct (table_stmt_source _ H eq_refl) as [[]|(l & M & I)].
    assert (Wx := nw_table _ _ (cw_ns _ _ Ws a (proj1 C)) x Ix). assert (Wy := nw_table _ _ (cw_ns _ _ Wt b (proj1 (proj2 C))) y Iy).
    destruct (mutate_table_in d x y l _ M I) as [(acts' & [= <-] & Ok_)|[(c & E)|[(n & c & E)|[(c & E)|[(q' & cs & rows & oc & n & k & rc & E & Z)|[(q' & c & n & k & rc & E & Z)|(u' & v' & q' & _ & _ & E)]]]]]]; try discriminate.
    apply (Ok_ act Ia u v); auto; [split; auto| |]; apply NoDup_ListNoDup; [exact (tw_cols _ _ Wx)|exact (tw_cols _ _ Wy)].
  Qed.
End Table.
Print Assumptions table_stmt_source.
