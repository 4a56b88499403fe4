(** The place of one table's mutation in the script of a catalog mutation. *)
From Verif Require Import PyStr QuoteModel ObjectDict ObjectDictSpec ObjectDictProofs Types Objects SqlAst Ddl Mutate DbSpec CatSpec MutSpec StmtSpec EqProofs NoopProofs KeySpec SortProofs StmtProofs StmtProofs2 DataSpec DataProofs1 DataProofs2 DataProofs3 DataProofs4 DataProofs5.
From Verif Require Import TabProofs3 TablePredProofs.
From stdpp Require Import gmap strings.
Open Scope list_scope.

(** [q] is the table that a moved column of [w] refers to *)
Definition lookup_of (d : dialect) (z w : table) (q : qid) : Prop :=
  exists p p' kn rc, common_col z w p p' /\ is_column_migrated d p p' = true /\ In (CForeign kn [c_name p'] q rc) (t_constraints w).
Lemma table_adds_lookup d z w l st : mutate_table d z w = Ok l -> In st l -> adds_rows st -> exists q, stmt_target st = Some q /\ lookup_of d z w q.
Proof.
  intros H I. intros A. { unfold mutate_table in H. destruct (mutate_table_base d z w) as [b|] eqn:B; simpl in H; [|discriminate]. injection H as <-.
    assert (Base : In st b -> exists q, stmt_target st = Some q /\ lookup_of d z w q).
    { clear I. intros I. unfold mutate_table_base, check_identity in B. destruct (qid_eqb (t_name z) (t_name w)) eqn:En; cbn [bind] in B; [|discriminate].
      match type of B with bind ?z _ = _ => destruct z as [soft|] eqn:B1; cbn [bind] in B; [|discriminate] end. apply table_error_ok in B1.
      match type of B with bind ?z _ = _ => destruct z as [mc|] eqn:B2; cbn [bind] in B; [|discriminate] end. apply table_error_ok in B2.
      match type of B with bind ?z _ = _ => destruct z as [nc|] eqn:B3; cbn [bind] in B; [|discriminate] end. apply table_error_ok in B3.
      match type of B with bind ?z _ = _ => destruct z as [mv|] eqn:B4; cbn [bind] in B; [|discriminate] end. apply table_error_ok in B4.
      match type of B with bind ?z _ = _ => destruct z as [al|] eqn:B5; cbn [bind] in B; [|discriminate] end. apply table_error_ok in B5.
      match type of B with (if ?z then _ else _) = _ => destruct z; [discriminate|] end. injection B as <-.
      rewrite !in_app_iff in I. destruct I as [I|[I|[I|I]]].
      - destruct (concat_res_in _ _ _ _ B1 I) as (p & r & Ip & Hr & Ir). destruct (soft_drop_column d (fst p)) as [a|] eqn:Ea; simpl in Hr; [|discriminate]. injection Hr as <-. apply alter_table_in in Ir as (acts & -> & _). destruct A.
      - destruct (mc ++ nc); [destruct I|]. apply alter_table_in in I as (acts & -> & _). destruct A.
      - destruct (concat_res_in _ _ _ _ B4 I) as (p & r & Ip & Hr & Ir). apply filter_In in Ip as [Ip M]. apply inter_common in Ip.
        assert (K : forall rf, get_constraint w (c_name (snd p)) = Ok rf -> lookup_of d z w (fst rf)).
        { intros rf Gc. unfold get_constraint in Gc. destruct (find_reference _ _) as [rf'|] eqn:E; [|discriminate]. injection Gc as <-. apply find_reference_some in E as (l1 & kn & l2 & E & _).
          exists (fst p), (snd p), kn, (snd rf'). split; [exact Ip|]. split; [exact M|]. rewrite E. apply in_or_app. right. now left. }
        unfold migrate_column in Hr. destruct d; try (injection Hr as <-; destruct Ir; fail); destruct (get_constraint w (c_name (snd p))) as [rf|] eqn:Er; cbn [bind] in Hr; try discriminate; injection Hr as <-.
        + destruct Ir as [<-|[]]. destruct A.
        + apply in_app_or in Ir as [Ir|[<-|[]]]; [|destruct A]. exists (fst rf). split; [|now apply K]. destruct (base_type (c_type (fst p))); try (destruct Ir; fail); destruct Ir as [<-|[]]; reflexivity.
      - match type of I with In _ (match ?z with _ => _ end) => destruct z end; [destruct I|]. apply alter_table_in in I as (acts & -> & _). destruct A. }
    destruct d; auto.
    - apply in_app_or in I as [I|I]; [auto|]. exfalso. apply in_app_or in I as [I|I].
      + unfold pg_column_comments in I. apply in_flat_map in I as (c & _ & I). destruct (comment_change _ _) as [x|]; [|destruct I]. destruct I as [<-|[]]. destruct A.
      + destruct (comment_change _ _) as [x|]; [|destruct I]. destruct I as [<-|[]]. destruct A.
    - apply in_app_or in I as [I|I]; [auto|]. exfalso. unfold my_table_comment in I. destruct (short_desc (t_desc z)), (short_desc (t_desc w)); try (destruct I as [<-|[]]; destruct A; fail); try (destruct I; fail).
      destruct (String.eqb _ _); [destruct I|]. destruct I as [<-|[]]. destruct A.
    - apply in_app_or in I as [I|I]; [|auto]. destruct (ms_defaults z w); [destruct I|]. apply alter_table_in in I as (acts & -> & _). destruct A. }
Qed.
Lemma mutate_table_adds d z w l st : mutate_table d z w = Ok l -> In st l ->
  inert st \/ stmt_target st = Some (t_name z) \/ (adds_rows st /\ exists q, stmt_target st = Some q /\ lookup_of d z w q).
Proof.
  intros H I. assert (G := table_adds_lookup d z w l st H I).
  destruct (mutate_table_in d z w l st H I) as [(acts & -> & _)|[(c & ->)|[(n' & c & ->)|[(c & ->)|[(q' & cs & rows & oc & n' & k' & rc & -> & Z)|[(q' & c & n' & k' & rc & -> & Z)|(u' & v' & q' & _ & _ & ->)]]]]]];
    try (left; exact Logic.I); try (right; left; reflexivity); right; right; (split; [exact Logic.I|apply G; exact Logic.I]).
Qed.

Lemma create_struct_inert d x l st : create_struct d x = Ok l -> In st l -> inert st.
Proof.
  unfold create_struct. destruct (map_res _ (s_members x)) as [ms|]; [|discriminate]. simpl. intros [= <-] [<-|I]; [exact Logic.I|].
  destruct d; try (destruct I; fail). destruct (s_desc x); [destruct I as [<-|[]]|destruct I]. exact Logic.I.
Qed.
Lemma mutate_enum_inert s t l st : mutate_enum s t = Ok l -> In st l -> inert st.
Proof.
  unfold mutate_enum. destruct (check_identity _ _); simpl; [|discriminate]. destruct (List.filter _ (e_values s)); [|discriminate]. intros [= <-] I. apply in_map_iff in I as (v & <- & _). exact Logic.I.
Qed.
Lemma mutate_struct_inert d s t l st : mutate_struct d s t = Ok l -> In st l -> inert st.
Proof.
  unfold mutate_struct. destruct (mutate_struct_base s t) as [b|] eqn:B; simpl; [|discriminate]. intros [= <-] I. apply in_app_or in I as [I|I].
  - unfold mutate_struct_base in B. destruct (check_identity _ _); simpl in B; [|discriminate]. destruct (concat_res _ _); simpl in B; [|discriminate]. destruct (map_res _ _); simpl in B; [|discriminate]. injection B as <-.
    unfold struct_alter in I. match type of I with In _ (match ?z with _ => _ end) => destruct z end; [destruct I|]. destruct I as [<-|[]]. exact Logic.I.
  - destruct d; try (destruct I; fail). destruct (comment_change _ _); [destruct I as [<-|[]]|destruct I]. exact Logic.I.
Qed.

Section Split.
  Context (d : dialect) (o : options) (s t : catalog) (a b : namespace) (x y : table).
  Context (Ws : cat_wf d s) (Wt : cat_wf d t) (C : common_ns s t a b) (Ix : In x (n_tables a)) (Iy : In y (n_tables b)) (Ek : t_key x = t_key y).
  (** statements about other namespaces, and rows added to lookup tables *)
  Definition elsewhere (st : stmt) : Prop :=
    inert st
    \/ (exists q, stmt_target st = Some q /\ fst (key_of q) <> n_name a)
    \/ (adds_rows st /\ exists a' b' z w q, common_ns s t a' b' /\ In z (n_tables a') /\ In w (n_tables b') /\ t_key z = t_key w /\ lookup_of d z w q /\ stmt_target st = Some q)
    \/ (exists c n, st = SDropSchema c n /\ n <> n_name a).
  Definition early (st : stmt) : Prop :=
    elsewhere st \/ exists z, In z (n_tables b) /\ ~ In (t_key z) (map t_key (n_tables a)) /\ stmt_target st = Some (t_name z).
  Definition late (st : stmt) : Prop :=
    elsewhere st
    \/ (exists z w l, In z (n_tables a) /\ In w (n_tables b) /\ t_key z = t_key w /\ t_key z <> t_key x /\ mutate_table d z w = Ok l /\ In st l)
    \/ (exists z, In z (n_tables a) /\ ~ In (t_key z) (map t_key (n_tables b)) /\ st = SDropTable (t_name z)).
  Definition filled (fl : list stmt) : Prop :=
    (forall st, In st fl -> exists e z, In z (n_tables b) /\ ~ In (t_key z) (map t_key (n_tables a)) /\ st = migrate_enum d e z)
    /\ forall e z, In e (n_enums a) -> ~ In (e_key e) (map e_key (n_enums b)) -> In z (n_tables b) -> ~ In (t_key z) (map t_key (n_tables a)) -> e_name e = t_name z -> In (migrate_enum d e z) fl.

  Lemma diff_in {A} (key : A -> string) (l l' : list A) z : In z l -> ~ In (key z) (map key l') -> In z (od_difference key l l').
  Proof. intros I N. apply difference_in. auto. Qed.
  Lemma ns_split l : mutate_namespace d o a b = Ok l ->
    exists L0 fl mid lxy L2, l = L0 ++ fl ++ mid ++ lxy ++ L2 /\ mutate_table d x y = Ok lxy /\ filled fl /\ (forall st, In st L0 -> early st) /\ (forall st, In st (mid ++ L2) -> late st).
  Proof.
    unfold mutate_namespace. destruct (negb (String.eqb (n_name a) (n_name b))); [discriminate|]. intros H.
    match type of H with bind ?z _ = _ => destruct z as [cs|] eqn:B1; cbn [bind] in H; [|discriminate] end.
    match type of H with bind ?z _ = _ => destruct z as [ct|] eqn:B2; cbn [bind] in H; [|discriminate] end.
    match type of H with bind ?z _ = _ => destruct z as [me|] eqn:B3; cbn [bind] in H; [|discriminate] end.
    match type of H with bind ?z _ = _ => destruct z as [ms|] eqn:B4; cbn [bind] in H; [|discriminate] end.
    match type of H with bind ?z _ = _ => destruct z as [mt|] eqn:B5; cbn [bind] in H; [|discriminate] end.
    assert (Wa := cw_ns _ _ Ws a (proj1 C)). assert (Wb := cw_ns _ _ Wt b (proj1 (proj2 C))).
    assert (Ixy : In (x, y) (od_intersection t_key (n_tables a) (n_tables b))).
    { apply (intersection_in t_key). split; [exact Ix|]. rewrite Ek. apply (get_in t_key); [now apply (table_keys_nodup d)|exact Iy]. }
    assert (Np : List.NoDup (map (fun p => t_key (fst p)) (od_intersection t_key (n_tables a) (n_tables b)))).
    { generalize (table_keys_nodup d a Wa). generalize (n_tables a). intros ta. induction ta as [|z ta IH]; intros N; simpl; [constructor|]. inversion N as [|? ? N1 N2]; subst. destruct (od_get t_key (t_key z) (n_tables b)); [|now apply IH].
      simpl. constructor; [|now apply IH]. intros I. apply N1. apply in_map_iff in I as (p & <- & I). apply in_inter in I as (I & _ & _). now apply in_map. }
    apply in_split in Ixy as (p1 & p2 & Ep). assert (Op : forall p, In p (p1 ++ p2) -> In (fst p) (n_tables a) /\ In (snd p) (n_tables b) /\ t_key (fst p) = t_key (snd p) /\ t_key (fst p) <> t_key x).
    { intros p Ip. assert (Ip' : In p (od_intersection t_key (n_tables a) (n_tables b))) by (rewrite Ep; apply in_or_app; apply in_app_or in Ip as [Ip|Ip]; [left|right; right]; exact Ip).
      apply in_inter in Ip' as (I1 & I2 & I3). split; [exact I1|]. split; [exact I2|]. split; [exact I3|]. intros E. rewrite Ep, map_app in Np. simpl in Np. apply NoDup_remove_2 in Np. apply Np. rewrite <- map_app, <- E. now apply (in_map (fun p => t_key (fst p))). }
    rewrite Ep in B5. apply concat_res_app in B5 as (w1 & w' & W1 & W' & ->). apply concat_res_cons in W' as (lxy & w2 & Hxy & W2 & ->). cbn [fst snd] in Hxy.
    injection H as <-.
    match goal with |- exists _ _ _ _ _, ?e ++ cs ++ ?sf ++ ct ++ ?ac ++ ?fi ++ me ++ ms ++ _ ++ ?dt ++ ?ds ++ ?de = _ /\ _ =>
      exists (e ++ cs ++ sf ++ ct ++ ac), fi, (me ++ ms ++ w1), lxy, (w2 ++ dt ++ ds ++ de) end.
    split; [rewrite <- !app_assoc; reflexivity|]. split; [exact Hxy|].
    assert (Wm : forall st pp ww, (forall p, In p pp -> In p (p1 ++ p2)) -> concat_res (fun p => mutate_table d (fst p) (snd p)) pp = Ok ww -> In st ww -> late st).
    { intros st pp ww Sub Hw I. destruct (concat_res_in _ _ _ _ Hw I) as (p & r & Ip & Hr & Ir). destruct (Op p (Sub p Ip)) as (O1 & O2 & O3 & O4). right. left. exists (fst p), (snd p), r. auto 10. }
    split; [split|split].
    - intros st I. apply in_flat_map in I as (e & Ie & Hx). apply in_map_iff in Hx as (z & <- & Hz). apply filter_In in Hz as [Hz Eq]. apply in_diff in Hz as [Hz Nz]. eauto.
    - intros e z Ie Ne Iz Nz E. apply in_flat_map. exists e. split; [now apply diff_in|]. apply in_map_iff. exists z. split; [reflexivity|]. apply filter_In. split; [now apply diff_in|]. now apply qid_eqb_eq.
    - intros st I. rewrite !in_app_iff in I. destruct I as [I|[I|[I|[I|I]]]].
      + left. left. apply in_map_iff in I as (e & <- & _). exact Logic.I.
      + left. left. destruct (concat_res_in _ _ _ _ B1 I) as (z & r & _ & Hr & Ir). eapply create_struct_inert; eauto.
      + left. left. apply in_map_iff in I as (e & <- & _). exact Logic.I.
      + right. destruct (concat_res_in _ _ _ _ B2 I) as (z & r & Iz & Hr & Ir). apply in_diff in Iz as [Iz Nz]. destruct (create_table_in d z r st Hr Ir) as (T1 & _). eauto.
      + right. apply in_flat_map in I as (z & Iz & Ir). apply in_diff in Iz as [Iz Nz]. destruct (add_constraints_in d z st Ir). eauto.
    - intros st I. rewrite !in_app_iff in I. destruct I as [[I|[I|I]]|[I|[I|[I|I]]]].
      + left. left. destruct (concat_res_in _ _ _ _ B3 I) as (p & r & _ & Hr & Ir). eapply mutate_enum_inert; eauto.
      + left. left. destruct (concat_res_in _ _ _ _ B4 I) as (p & r & _ & Hr & Ir). eapply mutate_struct_inert; eauto.
      + eapply (Wm st p1); eauto. intros; apply in_or_app; auto.
      + eapply (Wm st p2); eauto. intros; apply in_or_app; auto.
      + destruct (allow_drop_table o); [|destruct I]. right. right. apply in_map_iff in I as (z & <- & Iz). apply in_diff in Iz as [Iz Nz]. exists z. auto.
      + destruct (allow_drop_struct o); [|destruct I]. apply in_map_iff in I as (z & <- & Iz). left. left. exact Logic.I.
      + destruct (allow_drop_enum o); [|destruct I]. apply in_map_iff in I as (z & <- & Iz). left. left. destruct (existsb _ _); exact Logic.I.
  Qed.
  (** statements of other namespaces *)
  Lemma ns_elsewhere a' b' st : common_ns s t a' b' -> n_name a' <> n_name a -> ns_stmt d o a' b' st -> elsewhere st.
  Proof.
    intros (C1 & C2 & C3) N H.
    assert (Ka : forall q, In q (ns_names a') -> fst (key_of q) <> n_name a) by (intros q Q; now rewrite (key_scope d s a' q Ws C1 Q)).
    assert (Kb : forall q, In q (ns_names b') -> fst (key_of q) <> n_name a) by (intros q Q; rewrite (key_scope d t b' q Wt C2 Q); congruence).
    destruct H as [z I M T' Ds|z I M T' Ds|z I M T' Ds|e z Ie Ne Iz Nz Eq Es|z w Iz Iw E T' Ds|z w Iz Iw E T' Ds|z w l Iz Iw E H I|z A I M Es|z A I M Es|z A I M Es].
    - right. left. exists (t_name z). split; [exact T'|]. now apply Kb, names_table.
    - right. left. exists (s_name z). split; [exact T'|]. now apply Kb, names_struct.
    - right. left. exists (e_name z). split; [exact T'|]. now apply Kb, names_enum.
    - left. subst st. exact Logic.I.
    - right. left. exists (e_name z). split; [exact T'|]. now apply Ka, names_enum.
    - right. left. destruct T' as [T'|T']; [exists (s_name z)|exists (s_name w)]; (split; [exact T'|]); [now apply Ka, names_struct|now apply Kb, names_struct].
    - destruct (mutate_table_adds d z w l st H I) as [Z|[Z|(Z & q & Z1 & Z2)]]; [now left| |].
      + right. left. exists (t_name z). split; [exact Z|]. now apply Ka, names_table.
      + right. right. left. split; [exact Z|]. exists a', b', z, w, q. repeat (split; [assumption || (split; assumption) || (split; [assumption|split; assumption])|]). exact Z1.
    - right. left. subst st. exists (t_name z). split; [reflexivity|]. now apply Ka, names_table.
    - left. subst st. exact Logic.I.
    - left. destruct Es as [->|[-> _]]; exact Logic.I.
  Qed.
  Lemma cat_split s' t' l : mutate_catalog d o s t = Ok (s', t', l) ->
    exists L0 fl mid lxy L2, l = L0 ++ fl ++ mid ++ lxy ++ L2 /\ mutate_table d x y = Ok lxy /\ filled fl /\ (forall st, In st L0 -> early st) /\ (forall st, In st (mid ++ L2) -> late st).
  Proof.
    intros H. assert (N1 : List.NoDup (map n_name s)) by (apply NoDup_ListNoDup, (cw_names _ _ Ws)). assert (N2 : List.NoDup (map n_name t)) by (apply NoDup_ListNoDup, (cw_names _ _ Wt)).
    unfold mutate_catalog in H.
    assert (Cs := cat_sort_correct s N1). assert (Ct := cat_sort_correct t N2).
    destruct (cat_sort s) as [s1|] eqn:E1; simpl in H; [|discriminate].
    destruct (cat_sort t) as [t1|] eqn:E2; simpl in H; [|discriminate].
    destruct (mutate_sorted d o s1 t1) as [l1|] eqn:E3; simpl in H; [|discriminate]. injection H as <- <- <-.
    destruct Cs as [[Ps _] _], Ct as [[Pt _] _].
    assert (Is : forall n, In n s1 <-> In n s) by (intros n; split; apply Permutation_in; [now symmetry|exact Ps]).
    assert (It : forall n, In n t1 <-> In n t) by (intros n; split; apply Permutation_in; [now symmetry|exact Pt]).
    assert (Ns : forall z, In z (map n_name s1) <-> In z (map n_name s)) by (intros z; split; apply Permutation_in, Permutation_map; [now symmetry|exact Ps]).
    assert (Nt : forall z, In z (map n_name t1) <-> In z (map n_name t)) by (intros z; split; apply Permutation_in, Permutation_map; [now symmetry|exact Pt]).
    assert (D1 : List.NoDup (map n_name s1)) by (eapply Permutation_NoDup; [apply Permutation_map; exact Ps|exact N1]).
    assert (D2 : List.NoDup (map n_name t1)) by (eapply Permutation_NoDup; [apply Permutation_map; exact Pt|exact N2]).
    destruct C as (Ca & Cb & Cn).
    unfold mutate_sorted in E3.
    match type of E3 with bind ?z _ = _ => destruct z as [cs|] eqn:B1; cbn [bind] in E3; [|discriminate] end.
    match type of E3 with bind ?z _ = _ => destruct z as [ct|] eqn:B2; cbn [bind] in E3; [|discriminate] end.
    assert (Iab : In (a, b) (od_intersection n_name s1 t1)).
    { apply (intersection_in n_name). split; [now apply Is|]. rewrite Cn. apply (get_in n_name); [exact D2|now apply It]. }
    apply in_split in Iab as (p1 & p2 & Ep). rewrite Ep in B2. apply concat_res_app in B2 as (u1 & u' & U1 & U' & ->). apply concat_res_cons in U' as (ln & u2 & Hn & U2 & ->). cbn [fst snd] in Hn.
    assert (Np : List.NoDup (map (fun p => n_name (fst p)) (od_intersection n_name s1 t1))).
    { clear - D1. revert D1. induction s1 as [|z ta IH]; intros N; simpl; [constructor|]. inversion N as [|? ? M1 M2]; subst. destruct (od_get n_name (n_name z) t1); [|now apply IH].
      simpl. constructor; [|now apply IH]. intros I. apply M1. apply in_map_iff in I as (p & <- & I). apply in_inter in I as (I & _ & _). now apply in_map. }
    assert (Ot : forall st pp ww, (forall p, In p pp -> In p (p1 ++ p2)) -> concat_res (fun p => mutate_namespace d o (fst p) (snd p)) pp = Ok ww -> In st ww -> elsewhere st).
    { intros st pp ww Sub Hw I. destruct (concat_res_in _ _ _ _ Hw I) as (p & r & Ip & Hr & Ir). apply Sub in Ip.
      assert (Ip' : In p (od_intersection n_name s1 t1)) by (rewrite Ep; apply in_or_app; apply in_app_or in Ip as [Ip|Ip]; [left|right; right]; exact Ip).
      apply in_inter in Ip' as (I1 & I2 & I3). eapply (ns_elsewhere (fst p) (snd p)); [split; [now apply Is|split; [now apply It|exact I3]]| |eapply mutate_namespace_in; eauto].
      intros E. rewrite Ep, map_app in Np. simpl in Np. apply NoDup_remove_2 in Np. apply Np. rewrite <- map_app, <- E. now apply (in_map (fun p => n_name (fst p))). }
    destruct (ns_split ln Hn) as (L0 & fl & mid & lxy & L2 & -> & Hxy & Hf & He & Hl).
    injection E3 as <-.
    match goal with |- exists _ _ _ _ _, ?x1 ++ cs ++ ?x2 ++ _ ++ ?x3 ++ ?x4 = _ /\ _ => exists (x1 ++ cs ++ x2 ++ u1 ++ L0), fl, mid, lxy, (L2 ++ u2 ++ x3 ++ x4) end.
    split; [rewrite <- !app_assoc; reflexivity|]. split; [exact Hxy|]. split; [exact Hf|].
    assert (Nb : forall n, In n t1 -> ~ In (n_name n) (map n_name s1) -> n_name n <> n_name a) by (intros n _ Nn E; apply Nn; rewrite E; apply Ns; now apply in_map).
    assert (Na : forall n, In n s1 -> ~ In (n_name n) (map n_name t1) -> n_name n <> n_name a) by (intros n _ Nn E; apply Nn; rewrite E, Cn; apply Nt; now apply in_map).
    split; intros st I.
    - rewrite !in_app_iff in I. destruct I as [I|[I|[I|[I|I]]]]; [left|left|left|left; eapply (Ot st p1); eauto; intros; apply in_or_app; auto|apply He; exact I].
      + apply in_flat_map in I as (n & In_ & I). unfold create_schema in I. destruct (n_name n); [destruct I|]. destruct I as [<-|[]]. left. exact Logic.I.
      + destruct (concat_res_in _ _ _ _ B1 I) as (n & r & In_ & Hr & Ir). apply in_diff in In_ as [In_ Nn]. destruct (create_objects_in d n r st Hr Ir) as (q & Q1 & Q2 & Q3).
        right. left. exists q. split; [exact Q1|]. rewrite (key_scope d t n q Wt); [now apply Nb|now apply It|exact Q2].
      + apply in_flat_map in I as (n & In_ & I). apply in_diff in In_ as [In_ Nn]. unfold ns_add_constraints in I. apply in_flat_map in I as (z & Iz & I). destruct (add_constraints_in d z st I).
        right. left. exists (t_name z). split; [assumption|]. rewrite (key_scope d t n _ Wt); [now apply Nb|now apply It|now apply names_table].
    - rewrite !in_app_iff in I. destruct I as [I|[I|[I|[I|I]]]]; [apply Hl, in_or_app; auto|apply Hl, in_or_app; auto|left; eapply (Ot st p2); eauto; intros; apply in_or_app; auto|left|left].
      + apply in_flat_map in I as (n & In_ & I). apply in_diff in In_ as [In_ Nn]. unfold ns_drop_constraints in I. apply in_flat_map in I as (z & Iz & I). unfold drop_constraints in I.
        destruct (table_constraints z); [destruct I|]. destruct I as [<-|[]]. right. left. exists (t_name z). split; [reflexivity|]. rewrite (key_scope d s n _ Ws); [now apply Na|now apply Is|now apply names_table].
      + destruct (allow_drop_namespace o); [|destruct I]. apply in_app_or in I as [I|I]; apply in_flat_map in I as (n & In_ & I); apply in_diff in In_ as [In_ Nn].
        * unfold drop_objects in I. rewrite !in_app_iff in I. destruct I as [I|[I|I]]; apply in_map_iff in I as (z & <- & Iz); apply in_rev in Iz; [|left; exact Logic.I|left; exact Logic.I].
          right. left. exists (t_name z). split; [reflexivity|]. rewrite (key_scope d s n _ Ws); [now apply Na|now apply Is|now apply names_table].
        * unfold drop_schema in I. destruct (n_name n) eqn:E; [destruct I|]. destruct I as [<-|[]]. right. right. right. eexists _, _. split; [reflexivity|]. rewrite <- E. apply Na; [exact In_|]. rewrite E. exact Nn.
  Qed.
End Split.
