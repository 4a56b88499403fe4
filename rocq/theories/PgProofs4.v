(** Proofs about the PostgreSQL explorer: composite types, enumerations, names of relations. *)
From Verif Require Import PyStr QuoteModel QuoteSpec ObjectDict ObjectDictProofs Types EqProofs Objects SqlAst Ddl DbSpec CatSpec KeySpec Discover PgExplore PgCatSpec PgProofs1 PropsDiscover ExploreSpec PgProofs2 NoopProofs PgProofs3.
From Verif Require Factory DiscoverSpec.
From Coq Require Import List String Sorted Permutation Lia.
From stdpp Require Import gmap strings.

Lemma want_members_some ms n ty : want_members ms !! n = Some ty -> exists m, In m ms /\ m_name m = n /\ ty = m_type m.
Proof. unfold want_members. intros H. apply elem_of_list_to_map_2, elem_of_list_In, in_map_iff in H as (c & [= <- <-] & I). eauto. Qed.
Lemma want_members_of ms m : base.NoDup (map m_name ms) -> In m ms -> want_members ms !! m_name m = Some (m_type m).
Proof.
  intros N I. unfold want_members. apply elem_of_list_to_map_1.
  - rewrite <- list_fmap_compose. exact N.
  - apply elem_of_list_In, in_map_iff. eauto.
Qed.

(** ** Order of rows *)
Lemma sorted_filter {A} (R : A -> A -> Prop) p l : StronglySorted R l -> StronglySorted R (List.filter p l).
Proof.
  induction 1 as [|x l S IH F]; [constructor|]. cbn. destruct (p x); [|exact IH]. constructor; [exact IH|]. rewrite List.Forall_forall in *. intros y I. apply filter_In in I as [I _]. auto.
Qed.
Lemma sorted_map {A B} (f : A -> B) (R : A -> A -> Prop) (R' : B -> B -> Prop) l : (forall x y, In x l -> In y l -> R x y -> R' (f x) (f y)) -> StronglySorted R l -> StronglySorted R' (map f l).
Proof.
  intros H S. induction S as [|x l S IH F]; [constructor|]. cbn. constructor; [apply IH; intros a b Ia Ib; apply H; now right|].
  rewrite List.Forall_forall in *. intros y I. apply in_map_iff in I as (z & <- & I). apply H; [now left|now right|auto].
Qed.
Lemma sorted_unique {A} (f : A -> Z) l : forall m, Permutation l m -> StronglySorted (fun a b => (f a <= f b)%Z) l -> StronglySorted (fun a b => (f a < f b)%Z) m -> l = m.
Proof.
  induction l as [|x l IH]; intros m Pm S1 S2; [now apply Permutation_nil in Pm|]. destruct m as [|y m]; [symmetry in Pm; apply Permutation_nil in Pm; discriminate|].
  inversion S1 as [|? ? S1' F1]; inversion S2 as [|? ? S2' F2]; subst. rewrite List.Forall_forall in F1, F2.
  assert (x = y) as ->.
  { assert (Ix : In x (y :: m)) by (apply (Permutation_in _ Pm); now left). destruct Ix as [->|Ix]; [reflexivity|]. exfalso.
    assert (Iy : In y (x :: l)) by (symmetry in Pm; apply (Permutation_in _ Pm); now left). destruct Iy as [->|Iy].
    - specialize (F2 _ Ix). lia.
    - specialize (F2 _ Ix). specialize (F1 _ Iy). lia. }
  f_equal. apply IH; auto. now apply Permutation_cons_inv in Pm.
Qed.
Lemma str_leb_total a b : String.leb a b = true \/ String.leb b a = true.
Proof. destruct (String.leb a b) eqn:E; [now left|right]. exact (ObjectDictProofs.leb_total _ _ E). Qed.
Lemma str_leb_antisym a b : String.leb a b = true -> String.leb b a = true -> a = b.
Proof.
  unfold String.leb. intros H1 H2. pose proof (String.compare_antisym a b) as E. destruct (String.compare a b) eqn:Q; [now apply String.compare_eq_iff| |discriminate].
  destruct (String.compare b a); cbn in E; try discriminate.
Qed.
Lemma by_enum_total a b : by_enum a b = true \/ by_enum b a = true.
Proof.
  unfold by_enum. rewrite (String.eqb_sym (fst b)). destruct (String.eqb (fst a) (fst b)); [|apply str_leb_total]. rewrite !Z.leb_le. lia.
Qed.
Lemma by_enum_leb a b : by_enum a b = true -> String.leb (fst a) (fst b) = true.
Proof.
  unfold by_enum. destruct (String.eqb_spec (fst a) (fst b)) as [E|E]; [|auto]. intros _. rewrite E. destruct (str_leb_total (fst b) (fst b)); auto.
Qed.
Lemma by_enum_trans a b c : by_enum a b = true -> by_enum b c = true -> by_enum a c = true.
Proof.
  intros H1 H2. pose proof (str_le_trans _ _ _ (by_enum_leb _ _ H1) (by_enum_leb _ _ H2)) as L. unfold by_enum in *.
  destruct (String.eqb_spec (fst a) (fst c)) as [E|E]; [|exact L].
  destruct (String.eqb_spec (fst a) (fst b)) as [E1|E1].
  - destruct (String.eqb_spec (fst b) (fst c)) as [E2|E2]; [|congruence]. rewrite Z.leb_le in *. lia.
  - exfalso. apply E1. destruct (String.eqb_spec (fst b) (fst c)) as [E2|E2]; [congruence|]. apply str_leb_antisym; [exact H1|]. now rewrite E.
Qed.

(** ** [itertools.groupby] on rows that are sorted by their key *)
Lemma filter_step {A} (p : A -> bool) u m : List.filter p (u :: m) = if p u then u :: List.filter p m else List.filter p m.
Proof. reflexivity. Qed.
Lemma filter_perm {A} (p : A -> bool) l m : Permutation l m -> Permutation (List.filter p l) (List.filter p m).
Proof.
  induction 1 as [|a l m Pm IH|a b l|a b c P1 I1 P2 I2]; cbn; [reflexivity| | |etransitivity; [exact I1|exact I2]].
  - destruct (p a); [now constructor|exact IH].
  - destruct (p a), (p b); try reflexivity. apply perm_swap.
Qed.
Section Group.
  Context {A : Type}.
  Definition key_sorted (l : list (string * A)) : Prop := StronglySorted (fun a b => String.leb (fst a) (fst b) = true) l.
  Lemma group_head (l : list (string * A)) : match groupby l, l with [], [] => True | (k, _) :: _, (k', _) :: _ => k = k' | _, _ => False end.
  Proof. destruct l as [|[k a] l]; [exact I|]. cbn. destruct (groupby l) as [|[k' g] t]; [reflexivity|]. destruct (String.eqb k k'); reflexivity. Qed.
  Lemma group_keys (l : list (string * A)) k : In k (map fst (groupby l)) <-> In k (map fst l).
  Proof.
    induction l as [|[x a] l IH]; [reflexivity|]. cbn. rewrite <- IH. destruct (groupby l) as [|[k' g] t]; [reflexivity|]. cbn. destruct (String.eqb_spec x k') as [->|E]; cbn; tauto.
  Qed.
  Lemma group_spec (l : list (string * A)) : key_sorted l ->
    List.NoDup (map fst (groupby l)) /\ forall k g, In (k, g) (groupby l) -> g = map snd (List.filter (fun r => String.eqb (fst r) k) l).
  Proof.
    induction l as [|[x a] l IH]; intros S; [split; [constructor|intros ? ? []]|]. inversion S as [|? ? S' F]; subst. destruct (IH S') as [N G]. rewrite List.Forall_forall in F. cbn [fst] in F.
    assert (Fr : In x (map fst l) -> forall y b r, l = (y, b) :: r -> x = y).
    { intros I y b r ->. cbn in I. destruct I as [->|I]; [reflexivity|]. apply in_map_iff in I as ([z c] & E & I). cbn in E. subst z. apply str_leb_antisym; [apply (F (y, b)); now left|].
      inversion S' as [|? ? _ F']; subst. rewrite List.Forall_forall in F'. exact (F' _ I). }
    pose proof (group_head l) as H. pose proof (group_keys l) as GK. cbn [groupby]. destruct (groupby l) as [|[k' g'] t] eqn:Q.
    - destruct l as [|[y b] r]; [|destruct H]. split; [repeat constructor; intros []|]. intros k g [[= <- <-]|[]]. cbn. now rewrite String.eqb_refl.
    - destruct l as [|[y b] r]; [destruct H|]. subst k'. destruct (String.eqb_spec x y) as [E|E].
      + subst y. split; [exact N|]. intros k g [[= <- <-]|I].
        * rewrite (G x g' (or_introl eq_refl)). cbn [List.filter fst]. rewrite String.eqb_refl. reflexivity.
        * cbn [List.filter fst]. destruct (String.eqb_spec x k) as [->|D]; [exfalso; cbn in N; inversion N as [|? ? N1 _]; subst; apply N1; apply (in_map fst) in I; exact I|].
          rewrite (G k g (or_intror I)). cbn [List.filter fst]. destruct (String.eqb_spec x k) as [Z|Z]; [congruence|reflexivity].
      + assert (NI : ~ In x (map fst ((y, b) :: r))) by (intros I; apply E; exact (Fr I y b r eq_refl)). split.
        * cbn [map fst]. constructor; [|exact N]. intros I. apply NI. apply GK. exact I.
        * intros k g [[= <- <-]|I].
          -- assert (Z : List.filter (fun r0 => String.eqb (fst r0) x) ((y, b) :: r) = []) by (apply filter_none; intros z Iz; apply String.eqb_neq; intros Z; apply NI; rewrite <- Z; now apply in_map).
             rewrite (filter_step _ (x, a)). rewrite Z. cbn [fst]. rewrite String.eqb_refl. reflexivity.
          -- rewrite (G k g I). cbn [List.filter fst]. destruct (String.eqb_spec x k) as [Z|Z]; [|reflexivity]. exfalso. apply NI. apply GK. rewrite Z. apply (in_map fst) in I. exact I.
  Qed.
End Group.

Section Rel.
  Context (show : option string -> string -> string) (deparse : sqltype -> string -> string) (P : pgcat) (order : forall A : Type, string -> list A -> list A).
  Hypothesis K : keys_ok P.
  Hypothesis OA : oids_apart P.
  Hypothesis AO : any_order order.
  Hypothesis SH : DiscoverSpec.show_ok show.

  (** ** Composite types *)
  Section Struct.
    Context (s n : string) (c : cls_row) (ct : typ_row).
    Hypothesis R : relation_at P (s, n) "c" c.
    Hypothesis TA : type_at P (s, n) ct.
    Notation rel := (cls_oid c).
    Notation q := (Qualified (Some s) n).
    Lemma struct_description cm : comment_is P (typ_oid ct) InType 0 cm -> q_struct P q = [cm].
    Proof.
      intros C. unfold q_struct. destruct TA as (It & En & Sc). cbn in En, Sc. rewrite (flat_map_one _ _ ct (keyed_nodup typ_oid _ (ko_typ _ K)) It).
      - destruct (type_comment_found P K OA (typ_oid ct) cm C (in_map typ_oid _ _ It)) as (d & D1 & D2).
        rewrite (join_oid nsp_oid _ _ _ (Nsp (typnamespace ct) s) (ko_nsp _ K) Sc eq_refl). rewrite D1. cbn [flat_map app local_id scope_id]. rewrite !is_literal_quote, En. cbn [nspname]. rewrite !String.eqb_refl. cbn. now rewrite D2.
      - intros y Iy D. nil_join. exfalso. apply D.
        match goal with H : (_ && _)%bool = true |- _ => cbn [local_id scope_id] in H; rewrite !is_literal_quote in H; apply andb_true_iff in H as [H1 H2] end. apply String.eqb_eq in H1, H2.
        apply (keyed_eq (fun t => (typname t, typnamespace t)) _ _ _ (ko_typname _ K) Iy It). rewrite H1, En. f_equal.
        match goal with Hn : In ?m (pg_namespace P), E : N.eqb (typnamespace y) (nsp_oid ?m) = true |- _ => apply N.eqb_eq in E; rewrite E; apply (schema_oid P K _ _ s); [|exact Sc]; destruct m as [o x]; cbn in H2 |- *; subst x; exact Hn end.
    Qed.
    Context (x : structt).
    Hypothesis W : base.NoDup (map m_name (s_members x)).
    Hypothesis S : struct_seen x.
    Hypothesis T : struct_rows show P rel (want_members (s_members x)).

    Lemma members_found :
      Forall2 (fun a m => exists k, In k (s_members x) /\ m_name k = attname a /\ mm_name (snd m) = attname a /\ discover_type (mm_type (snd m)) false = Ok (m_type k) /\ mm_desc (snd m) = None) (lives P rel) (q_members P q).
    Proof.
      unfold lives, q_members. apply rows_forall2.
      - intros a Ia L. apply (liveb_live P) in L; [|exact Ia]. destruct (sr_live _ _ _ _ T a L) as [ty X].
        destruct (sr_members _ _ _ _ T _ _ X) as (a' & L' & E & AT & CM). assert (a' = a) as -> by (apply (live_eq P K rel); auto; exact (sr_names _ _ _ _ T _ _ L' L E)). clear E L'.
        apply want_members_some in X as (k & Ik & Nk & ->). destruct (ss_members _ S k Ik) as (F & NA & _).
        destruct (type_found show P K SH a (m_type k) AT F) as (t & ns & el & It & Ins & E1 & E2 & E3 & E4).
        destruct (comment_found P K OA rel (attnum a) None CM (in_map cls_oid _ _ (proj1 R))) as (d & D1 & D2).
        destruct L as (_ & L1 & L2 & L3). destruct R as (Ic & _ & _ & Sc).
        eexists. split; [|exists k; split; [exact Ik|]; split; [exact Nk|]].
        + rewrite (join_oid typ_oid _ _ _ t (ko_typ _ K) It E1). rewrite (join_oid nsp_oid _ _ _ ns (ko_nsp _ K) Ins E2).
          rewrite (join_oid cls_oid _ _ _ c (ko_cls _ K) Ic (eq_sym L1)). rewrite (join_oid nsp_oid _ _ _ (Nsp (relnamespace c) s) (ko_nsp _ K) Sc eq_refl).
          rewrite E3. cbn [flat_map app]. rewrite D1. cbn [flat_map app]. unfold where_struct. rewrite (where_true P s n _ "c" c R) by (cbn; auto).
          rewrite (proj2 (Z.ltb_lt _ _) L2). cbn [andb app]. reflexivity.
        + cbn [snd mm_name mm_type mm_desc]. split; [reflexivity|]. split; [|exact D2].
          destruct (negb (Z.eqb (attndims a) 0)); [|exact E4]. exfalso. revert E4. unfold discover_type, pg_discover. destruct (tm_name _); [|discriminate]. destruct (from_spec _ _ _ _ _ _ _ _); cbn; [|discriminate]. intros [= Z]. exact (NA _ (eq_sym Z)).
      - intros a Ia L. nil_join. exfalso.
        assert (B : liveb rel a = true); [|congruence]. unfold liveb.
        repeat match goal with H : (_ && _)%bool = true |- _ => apply andb_true_iff in H as [? ?] end.
        match goal with Hc : In ?k (pg_class P), Hn : In ?m (pg_namespace P), E : N.eqb (relnamespace ?k) (nsp_oid ?m) = true, W : where_struct _ ?k ?m = true |- _ => pose proof (where_only P K s n _ "c" c k m R Hc Hn E W) as -> end.
        match goal with H : N.eqb (attrelid a) _ = true |- _ => rewrite H end. match goal with H : Z.ltb 0 _ = true |- _ => rewrite H end. cbn.
        apply negb_true_iff, N.eqb_neq. match goal with It : In ?t (pg_type P), E : N.eqb (atttypid a) (typ_oid ?t) = true |- _ => apply N.eqb_eq in E; rewrite E; exact (ko_typ0 _ K t It) end.
    Qed.

    Definition read_mem (r : Z * memmeta) : res member := do t <- discover_type (mm_type (snd r)) false; Ok (Mem (mm_name (snd r)) t (or_none (mm_desc (snd r)))).
    Lemma struct_members : exists ms, map_res read_mem (sort_by by_num (order _ ("members " ++ n)%string (q_members P q))) = Ok ms /\ Permutation ms (s_members x).
    Proof.
      assert (F := members_found).
      assert (Pm : Permutation (q_members P q) (sort_by by_num (order _ ("members " ++ n)%string (q_members P q)))) by (etransitivity; [symmetry; apply AO|apply sort_perm']).
      destruct (forall2_perm _ _ _ _ F Pm) as (l' & Pl & F'). revert F'. generalize (sort_by by_num (order _ ("members " ++ n)%string (q_members P q))). intros rows F'. clear F Pm.
      assert (G : exists ms, map_res read_mem rows = Ok ms /\ Forall2 (fun a k => In k (s_members x) /\ m_name k = attname a) l' ms).
      { clear Pl. induction F' as [|a m l m' (k & I & N & E1 & E2 & E3) F IH]; [exists []; split; [reflexivity|constructor]|]. destruct IH as (ms & E & G).
        assert (Ek : read_mem m = Ok k). { unfold read_mem. rewrite E2, E1, E3. cbn. destruct (ss_members _ S k I) as (_ & _ & D). rewrite <- N. destruct k; cbn in *. now rewrite D. }
        exists (k :: ms). cbn [map_res]. rewrite Ek. cbn [bind]. rewrite E. split; [reflexivity|]. constructor; auto. }
      destruct G as (ms & E & G). exists ms. split; [exact E|].
      assert (Nm : map m_name ms = map attname l') by (apply (forall2_keys (fun a k => In k (s_members x) /\ m_name k = attname a)); [intros a b [_ Z]; exact Z|exact G]).
      pose proof W as ND. apply nodup_list in ND.
      apply (perm_by_key m_name).
      - rewrite Nm. apply (Permutation_NoDup (Permutation_map attname Pl)). apply (lives_names P K). exact (sr_names _ _ _ _ T).
      - exact ND.
      - intros k I. destruct (forall2_in_r _ _ _ _ G I) as (a & _ & J & _). exact J.
      - intros k I. rewrite Nm. destruct (sr_members _ _ _ _ T (m_name k) (m_type k)) as (a & L & E' & _); [apply want_members_of; [exact W|exact I]|].
        rewrite <- E'. apply in_map. apply (Permutation_in _ Pl). now apply lives_in.
    Qed.
    Lemma struct_found : comment_is P (typ_oid ct) InType 0 (norm_comment (s_desc x)) -> s_name x = q ->
      exists x', get_struct P order q = Ok x' /\ s_name x' = q /\ List.NoDup (map m_name (s_members x')) /\ struct_eqb x' x = true.
    Proof.
      intros C Nm. unfold get_struct. cbn [local_id]. rewrite (struct_description _ C).
      assert (D : order (option string) ("struct " ++ n)%string [norm_comment (s_desc x)] = [norm_comment (s_desc x)]) by (apply Permutation_length_1_inv; symmetry; apply AO).
      rewrite D. destruct struct_members as (ms & E & Pc). unfold read_mem in E. rewrite E. cbn [bind].
      pose proof W as N1. apply nodup_list in N1.
      assert (M1 : List.NoDup (map m_name ms)) by exact (Permutation_NoDup (Permutation_sym (Permutation_map m_name Pc)) N1).
      eexists. split; [reflexivity|]. rewrite (make_id m_name ms M1). split; [reflexivity|]. split; [exact M1|].
      unfold struct_eqb. cbn [s_name s_members s_desc]. rewrite Nm. rewrite !andb_true_iff. repeat split.
      - now apply qid_eqb_eq.
      - apply eqb_perm; [exact M1|exact Pc|]. intros y _. now apply mem_eqb_eq.
      - apply os_eqb_eq. apply norm_id, (ss_desc _ S).
    Qed.
  End Struct.

  (** ** Names of relations *)
  Lemma relations_in s kinds x : In x (q_relations P s kinds) <-> exists kind c, In kind kinds /\ relation_at P (s, x) kind c.
  Proof.
    unfold q_relations. rewrite in_flat_map. split.
    - intros (c & Ic & I). apply in_flat_map in I as (m & Im & I). destruct (N.eqb_spec (relnamespace c) (nsp_oid m)) as [E|E]; [|destruct I].
      destruct (is_literal (nspname m) (quote s) && existsb (fun k => is_literal (relkind c) (quote k)) kinds)%bool eqn:B; [|destruct I]. destruct I as [<-|[]].
      apply andb_true_iff in B as [B1 B2]. rewrite is_literal_quote in B1. apply String.eqb_eq in B1. apply existsb_exists in B2 as (k & Ik & B2). rewrite is_literal_quote in B2. apply String.eqb_eq in B2.
      exists k, c. split; [exact Ik|]. repeat split; auto. cbn. rewrite E. destruct m as [o y]. cbn in *. subst y. exact Im.
    - intros (k & c & Ik & (Ic & En & Ek & Sc)). cbn in *. exists c. split; [exact Ic|]. apply in_flat_map. exists (Nsp (relnamespace c) s). split; [exact Sc|]. cbn. rewrite N.eqb_refl, is_literal_quote, String.eqb_refl. cbn.
      assert (B : existsb (fun k => is_literal (relkind c) (quote k)) kinds = true). { apply existsb_exists. exists k. split; [exact Ik|]. rewrite is_literal_quote, Ek. apply String.eqb_refl. }
      rewrite B. now left.
  Qed.
  Lemma relations_nodup s kinds : List.NoDup (q_relations P s kinds).
  Proof.
    unfold q_relations. pose proof (ko_relname _ K) as N. pose proof (ko_nsp _ K) as Nn. revert N.
    assert (Sub : forall l, (forall c, In c l -> In c (pg_class P)) -> List.NoDup (map (fun c => (relname c, relnamespace c)) l) ->
      List.NoDup (flat_map (fun cls => flat_map (fun nsp => if N.eqb (relnamespace cls) (nsp_oid nsp) then if (is_literal (nspname nsp) (quote s) && existsb (fun k => is_literal (relkind cls) (quote k)) kinds)%bool then [relname cls] else [] else []) (pg_namespace P)) l)).
    2:{ intros N. exact (Sub _ (fun c I => I) N). }
    assert (One : forall c y, In y (flat_map (fun nsp => if N.eqb (relnamespace c) (nsp_oid nsp) then if (is_literal (nspname nsp) (quote s) && existsb (fun k => is_literal (relkind c) (quote k)) kinds)%bool then [relname c] else [] else []) (pg_namespace P)) -> y = relname c /\ schema_of P (relnamespace c) s).
    { intros c y I. apply in_flat_map in I as (m & Im & I). destruct (N.eqb_spec (relnamespace c) (nsp_oid m)) as [E|E]; [|destruct I]. destruct (_ && _)%bool eqn:B; [|destruct I]. destruct I as [<-|[]]. split; [reflexivity|].
      apply andb_true_iff in B as [B1 _]. rewrite is_literal_quote in B1. apply String.eqb_eq in B1. rewrite E. destruct m as [o z]. cbn in *. subst z. exact Im. }
    induction l as [|c l IH]; intros Sb N; [constructor|]. cbn in N. inversion N as [|? ? H1 H2]; subst. cbn [flat_map].
    specialize (IH (fun c I => Sb c (or_intror I)) H2).
    match goal with |- List.NoDup (?h ++ _) => assert (Hh : h = [] \/ exists m, In m (pg_namespace P) /\ h = [relname c]) end.
    { destruct (in_dec N.eq_dec (relnamespace c) (map nsp_oid (pg_namespace P))) as [I|I].
      - apply in_map_iff in I as (m & E & Im). rewrite (join_oid nsp_oid _ _ _ m Nn Im E). destruct (_ && _)%bool; [right; eauto|now left].
      - left. apply flat_map_nil. intros m Im. destruct (N.eqb_spec (relnamespace c) (nsp_oid m)) as [E|E]; [|reflexivity]. exfalso. apply I. rewrite E. now apply in_map. }
    match goal with |- List.NoDup (?h ++ _) => assert (Hs : forall y, In y h -> y = relname c /\ schema_of P (relnamespace c) s) by (intros y Iy; exact (One c y Iy)); revert Hh Hs; generalize h end. intros h Hh Hs.
    destruct Hh as [-> | (m & _ & ->)]; [exact IH|]. cbn. constructor; [|exact IH]. intros I. apply in_flat_map in I as (c' & Ic' & I). destruct (One c' _ I) as [E Sc']. destruct (Hs _ (or_introl eq_refl)) as [_ Sc].
    apply H1. apply in_map_iff. exists c'. split; [|exact Ic']. rewrite <- E. f_equal. exact (schema_oid P K _ _ s Sc' Sc).
  Qed.

  (** ** Enumerations *)
  Lemma enums_in s r : In r (q_enums P s) <-> exists t e, type_at P (s, fst r) t /\ In e (pg_enum P) /\ enumtypid e = typ_oid t /\ snd r = (enumsortorder e, enumlabel e).
  Proof.
    unfold q_enums. rewrite in_flat_map. split.
    - intros (t & It & I). apply in_flat_map in I as (e & Ie & I). destruct (N.eqb_spec (typ_oid t) (enumtypid e)) as [E|E]; [|destruct I].
      apply in_flat_map in I as (m & Im & I). destruct (N.eqb_spec (nsp_oid m) (typnamespace t)) as [Em|Em]; [|destruct I]. rewrite is_literal_quote in I. destruct (String.eqb_spec (nspname m) s) as [Es|Es]; [|destruct I]. destruct I as [<-|[]].
      exists t, e. cbn. repeat split; auto. rewrite <- Em. destruct m as [o z]. cbn in *. subst z. exact Im.
    - intros (t & e & (It & En & Sc) & Ie & Ee & Er). cbn in *. exists t. split; [exact It|]. apply in_flat_map. exists e. split; [exact Ie|]. rewrite Ee, N.eqb_refl. apply in_flat_map. exists (Nsp (typnamespace t) s). split; [exact Sc|].
      cbn. rewrite N.eqb_refl, is_literal_quote, String.eqb_refl. left. rewrite En, <- Er. now destruct r.
  Qed.
  Lemma enums_of s n t : type_at P (s, n) t ->
    List.filter (fun r => String.eqb (fst r) n) (q_enums P s) = map (fun e => (n, (enumsortorder e, enumlabel e))) (List.filter (fun e => N.eqb (enumtypid e) (typ_oid t)) (pg_enum P)).
  Proof.
    intros (It & En & Sc). cbn in En, Sc. unfold q_enums. rewrite filter_flat_map. rewrite (flat_map_one _ _ t (keyed_nodup typ_oid _ (ko_typ _ K)) It).
    - rewrite filter_flat_map. induction (pg_enum P) as [|e l IH]; [reflexivity|]. cbn [flat_map List.filter]. rewrite IH. rewrite (N.eqb_sym (enumtypid e)). destruct (N.eqb (typ_oid t) (enumtypid e)); [|reflexivity].
      rewrite (join_oid' nsp_oid _ _ _ (Nsp (typnamespace t) s) (ko_nsp _ K) Sc eq_refl). cbn [nspname]. rewrite is_literal_quote, String.eqb_refl. cbn [List.filter fst]. rewrite En, String.eqb_refl. reflexivity.
    - intros y Iy D. apply filter_none. intros r Ir. apply in_flat_map in Ir as (e & Ie & Ir). destruct (N.eqb (typ_oid y) (enumtypid e)); [|destruct Ir].
      apply in_flat_map in Ir as (m & Im & Ir). destruct (N.eqb_spec (nsp_oid m) (typnamespace y)) as [Em|Em]; [|destruct Ir]. rewrite is_literal_quote in Ir. destruct (String.eqb_spec (nspname m) s) as [Es|Es]; [|destruct Ir]. destruct Ir as [<-|[]].
      apply String.eqb_neq. cbn. intros Z. apply D. apply (keyed_eq (fun t => (typname t, typnamespace t)) _ _ _ (ko_typname _ K) Iy It). rewrite Z, En. f_equal. rewrite <- Em. apply (schema_oid P K _ _ s); [|exact Sc]. destruct m as [o z]. cbn in *. subst z. exact Im.
  Qed.
  Notation groups s := (groupby (sort_by by_enum (order _ "enums" (q_enums P s)))).
  Lemma enum_sorted s : StronglySorted (fun a b => by_enum a b = true) (sort_by by_enum (order _ "enums" (q_enums P s))).
  Proof. apply sort_sorted'; [exact by_enum_total|exact by_enum_trans]. Qed.
  Lemma enum_group s n t vs g : type_at P (s, n) t -> enum_rows P (typ_oid t) vs -> In (n, g) (groups s) -> map snd g = vs.
  Proof.
    intros TA (l & Pl & Sl & Vl) I. pose proof (enum_sorted s) as S.
    assert (KS : key_sorted (sort_by by_enum (order _ "enums" (q_enums P s)))). { unfold key_sorted. revert S. generalize (sort_by by_enum (order _ "enums" (q_enums P s))). intros m S. induction S as [|a m S IH F]; [constructor|]. constructor; [exact IH|]. rewrite List.Forall_forall in *. intros b Ib. apply by_enum_leb. auto. }
    destruct (group_spec _ KS) as [_ G]. rewrite (G _ _ I). clear I g G KS.
    assert (E : List.filter (fun r => String.eqb (fst r) n) (sort_by by_enum (order _ "enums" (q_enums P s))) = map (fun e => (n, (enumsortorder e, enumlabel e))) l).
    { apply (sorted_unique (fun r : string * (Z * string) => fst (snd r))).
      - rewrite Pl, <- (enums_of s n t TA).
        assert (Pm : Permutation (sort_by by_enum (order _ "enums" (q_enums P s))) (q_enums P s)) by (etransitivity; [symmetry; apply sort_perm'|apply AO]).
        exact (filter_perm _ _ _ Pm).
      - apply (sorted_filter _ (fun r => String.eqb (fst r) n)) in S. revert S. 
        assert (Fn : forall r, In r (List.filter (fun r => String.eqb (fst r) n) (sort_by by_enum (order _ "enums" (q_enums P s)))) -> fst r = n) by (intros r Ir; apply filter_In in Ir as [_ Ir]; now apply String.eqb_eq).
        revert Fn. generalize (List.filter (fun r => String.eqb (fst r) n) (sort_by by_enum (order _ "enums" (q_enums P s)))). intros m Fn S. induction S as [|a m S IH F]; [constructor|]. constructor; [apply IH; intros r Ir; apply Fn; now right|].
        rewrite List.Forall_forall in *. intros b Ib. specialize (F b Ib). unfold by_enum in F. rewrite (Fn a (or_introl eq_refl)), (Fn b (or_intror Ib)), String.eqb_refl in F. now apply Z.leb_le.
      - apply (sorted_map _ (fun a b => (enumsortorder a < enumsortorder b)%Z)); [|exact Sl]. intros a b _ _ L. exact L. }
    rewrite E, !map_map. cbn. exact Vl.
  Qed.
  Lemma groups_nodup s : List.NoDup (map fst (groups s)).
  Proof.
    pose proof (enum_sorted s) as S. apply group_spec. unfold key_sorted. revert S. generalize (sort_by by_enum (order _ "enums" (q_enums P s))). intros m S. induction S as [|a m S IH F]; [constructor|]. constructor; [exact IH|]. rewrite List.Forall_forall in *. intros b Ib. apply by_enum_leb. auto.
  Qed.
  Lemma groups_in s n : In n (map fst (groups s)) <-> exists t e, type_at P (s, n) t /\ In e (pg_enum P) /\ enumtypid e = typ_oid t.
  Proof.
    rewrite group_keys. split.
    - intros I. apply in_map_iff in I as (r & <- & I). pose proof (Permutation_in _ (Permutation_sym (sort_perm' _ _)) I) as I1. clear I. rename I1 into I. apply (Permutation_in _ (AO _ _ _)) in I. apply enums_in in I as (t & e & H1 & H2 & H3 & _). eauto.
    - intros (t & e & H1 & H2 & H3). apply in_map_iff. exists (n, (enumsortorder e, enumlabel e)). split; [reflexivity|]. apply (Permutation_in _ (sort_perm' _ _)). apply (Permutation_in _ (Permutation_sym (AO _ _ _))). apply enums_in. eauto 10.
  Qed.
End Rel.
