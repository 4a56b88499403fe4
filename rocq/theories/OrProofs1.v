(** Proofs about the Oracle explorer: a table. *)
From Verif Require Import PyStr QuoteModel QuoteSpec QuoteProofs ObjectDict ObjectDictProofs Types EqProofs Objects SqlAst Ddl DbSpec CatSpec KeySpec Discover PropsDiscover PgProofs1 NoopProofs PgProofs3 PgProofs4 IsExplore IsSeenSpec IsCatSpec IsProofs1 OrExplore OrCatSpec.
From Verif Require Factory FactorySpec PropsFactory DiscoverSpec PgExplore IsProofs2.
From Coq Require Import List String Sorted Permutation Lia.
From stdpp Require Import gmap strings.

Lemma numbered {A B} (pos : A -> Z) (g : A -> B) (rows : list (Z * B)) (l : list A) :
  StronglySorted (fun a b => (fst a <= fst b)%Z) rows -> Permutation rows (map (fun r => (pos r, g r)) l) -> map pos l = map Z.of_nat (seq 1 (List.length l)) -> map snd rows = map g l.
Proof.
  intros S Pm Po. assert (E : rows = map (fun r => (pos r, g r)) l); [|rewrite E, map_map; reflexivity].
  apply (sorted_unique fst); [exact Pm|exact S|]. apply (seq_sorted fst _ 1). rewrite map_map, map_length. exact Po.
Qed.
Lemma read_all {R} (name : R -> string) (read : R -> res column) (rows : list R) cols :
  List.NoDup (map name rows) -> List.NoDup (map c_name cols) -> (forall r, In r rows -> exists c, read r = Ok c /\ In c cols /\ c_name c = name r) ->
  (forall c, In c cols -> In (c_name c) (map name rows)) -> exists cs, map_res read rows = Ok cs /\ Permutation cs cols.
Proof.
  intros N1 N2 Q A. assert (F : exists cs, Forall2 (fun r c => read r = Ok c /\ In c cols /\ c_name c = name r) rows cs).
  { clear -Q. revert Q. induction rows as [|r l IH]; intros Q; [exists []; constructor|]. destruct (Q r (or_introl eq_refl)) as (c & Hc). destruct IH as (cs & F); [intros x Ix; apply Q; now right|]. exists (c :: cs). now constructor. }
  destruct F as (cs & F). exists cs. split; [apply map_res_forall2; clear -F; induction F as [|a b l m (H & _) F IH]; constructor; auto|].
  assert (Nm : map c_name cs = map name rows) by (apply (forall2_keys (fun r c => read r = Ok c /\ In c cols /\ c_name c = name r)); [intros a b (_ & _ & H); exact H|exact F]).
  apply (perm_by_key c_name); [rewrite Nm; exact N1|exact N2| |].
  - intros c Ic. destruct (forall2_in_r _ _ _ _ F Ic) as (r & _ & _ & H & _). exact H.
  - intros c Ic. rewrite Nm. exact (A c Ic).
Qed.
Lemma nodup_by {A B} (f : A -> B) l : List.NoDup l -> (forall a b, In a l -> In b l -> f a = f b -> a = b) -> List.NoDup (map f l).
Proof.
  induction l as [|x l IH]; intros N U; [constructor|]. inversion N; subst. cbn. constructor.
  - intros J. apply in_map_iff in J as (y & E & J). rewrite (U y x) in J; [contradiction|now right|now left|exact E].
  - apply IH; [assumption|]. intros a b Ia Ib. apply U; now right.
Qed.

Section Table.
  Context (deparse : sqltype -> string -> string) (w : Z) (V : dictionary) (user : string) (order : forall A : Type, string -> list A -> list A).
  Hypothesis K : OrCatSpec.keys_ok V.
  Hypothesis AO : any_order order.
  Context (t : table).
  Notation q := (t_name t).
  Notation n := (local_id q).
  Hypothesis W : tab_wf DOracle t.
  Hypothesis S : or_tab_seen deparse t.
  Hypothesis Al : alone V user n.
  Hypothesis Tb : table_of V user n None.
  Hypothesis T : OrCatSpec.table_rows deparse w V user n (want_tab DOracle t).

  Lemma named_is a : named q a = String.eqb a n.
  Proof. exact (is_literal_quote a n). Qed.

  (** ** Columns *)
  Definition ocol_of (r : ocol) : bool := String.eqb (ol_table r) n.
  Lemma ocol_at r : In r (dba_tab_columns V) -> ocol_of r = true -> column_of V user n r.
  Proof. intros Ir E. apply String.eqb_eq in E. split; [exact Ir|]. now rewrite (proj1 (proj2 Al) r Ir E), E. Qed.
  Lemma ocol_row r : column_of V user n r -> exists c, In c (t_columns t) /\ c_name c = ol_name r /\ col_row deparse w V user r (want_col DOracle c).
  Proof.
    intros H. destruct (OrCatSpec.tr_only _ _ _ _ _ _ T r H) as [x X]. destruct (OrCatSpec.tr_cols _ _ _ _ _ _ T _ x X) as (r' & A & E & CR).
    assert (r' = r) as ->. { apply (keyed_eq _ _ _ _ (OrCatSpec.ko_col _ K) (proj1 A) (proj1 H)). destruct A as [_ A], H as [_ H]. congruence. }
    cbn in X. apply want_cols_some in X as (c & Ic & En & ->). eauto.
  Qed.
  Lemma ocols_are : q_ocols V q = map (fun r => (ol_id r, (r, None))) (List.filter ocol_of (dba_tab_columns V)).
  Proof.
    unfold q_ocols. rewrite <- flat_map_if. apply flat_map_in. intros r Ir. rewrite named_is. fold (ocol_of r). destruct (ocol_of r) eqn:E.
    - pose proof (ocol_at r Ir E) as H. destruct (ocol_row r H) as (c & Ic & En & CR). pose proof (cr_comment _ _ _ _ _ _ CR) as Cm. cbn in Cm.
      destruct H as [_ H]. injection H as Ho Ht.
      rewrite (flat_map_one _ _ _ (keyed_nodup _ _ (OrCatSpec.ko_ccom _ K)) Cm).
      + cbn [om_owner om_table om_col om_text]. rewrite Ho, !String.eqb_refl. reflexivity.
      + intros y Iy D. destruct (_ && _)%bool eqn:Q; [|reflexivity]. exfalso. apply D. apply (keyed_eq _ _ _ _ (OrCatSpec.ko_ccom _ K) Iy Cm). cbn. rewrite !andb_true_iff in Q. destruct Q as [[Q1 Q2] Q3]. apply String.eqb_eq in Q1, Q2, Q3. congruence.
    - apply flat_map_nil. intros y Iy. destruct (_ && _)%bool; reflexivity.
  Qed.
  Lemma ocol_read r c : In c (t_columns t) -> c_name c = ol_name r -> col_row deparse w V user r (want_col DOracle c) -> read_ocol (r, None) = Ok c.
  Proof.
    intros Ic En [(s & x & Ts & Rp & Eo & E1 & E2 & E3 & E4 & E5) Nu Id De _]. pose proof (ot_cols _ _ S c Ic) as CS. unfold read_ocol. rewrite Eo, E1, E2, E3, E4, E5.
    pose proof (C30_oracle w _ (oc_type _ _ CS)) as F. unfold found_oracle in F. cbn [want_col dc_type] in Ts. rewrite Ts, Rp in F. injection F as ->. cbn [bind].
    cbn [want_col dc_null dc_ident dc_default dc_type] in *. rewrite Nu, Id. assert (X1 : negb (String.eqb (if c_nullable c then "Y" else "N") "N") = c_nullable c) by (destruct (c_nullable c); reflexivity). rewrite X1.
    assert (X2 : String.eqb (if c_identity c then "YES" else "NO") "YES" = c_identity c) by (destruct (c_identity c); reflexivity). rewrite X2, <- En.
    assert (X3 : (if c_identity c then None else ol_default r) = c_default c).
    { destruct (c_identity c) eqn:I; [destruct (tw_col _ _ W c Ic I); congruence|]. rewrite (De eq_refl). unfold want_default. destruct (c_default c) as [e|] eqn:Q; [|reflexivity]. cbn. f_equal. exact (oc_default _ _ CS e Q). }
    rewrite X3, <- (oc_desc _ _ CS). now destruct c.
  Qed.
  Lemma ocolumns_found : exists cs, map_res read_ocol (map snd (PgExplore.sort_by by_pos (order _ ("columns " ++ n)%string (q_ocols V q)))) = Ok cs /\ Permutation cs (t_columns t).
  Proof.
    set (rows := map snd _). assert (P : Permutation rows (map (fun r => (r, None)) (List.filter ocol_of (dba_tab_columns V)))).
    { unfold rows. rewrite ocols_are. etransitivity; [apply Permutation_map; etransitivity; [symmetry; apply sort_perm'|apply AO]|]. now rewrite map_map. }
    assert (IN : forall x, In x rows <-> exists r, x = (r, None) /\ column_of V user n r).
    { intros x. transitivity (In x (map (fun r => (r, None)) (List.filter ocol_of (dba_tab_columns V)))); [split; apply Permutation_in; [|symmetry]; exact P|]. rewrite in_map_iff. split.
      - intros (r & <- & H). apply filter_In in H as [Ir E]. exists r. split; [reflexivity|now apply ocol_at].
      - intros (r & -> & H & E). exists r. split; [reflexivity|]. apply filter_In. split; [exact H|]. injection E as _ E. now apply String.eqb_eq. }
    apply (read_all (fun x => ol_name (fst x))).
    - apply nodup_by.
      + apply (Permutation_NoDup (Permutation_sym P)). apply nodup_by; [|intros a b _ _ E; now injection E]. apply List.NoDup_filter. exact (keyed_nodup _ _ (OrCatSpec.ko_col _ K)).
      + intros a b Ia Ib E. apply IN in Ia as (r & -> & A), Ib as (r' & -> & B). cbn in E. f_equal. apply (keyed_eq _ _ _ _ (OrCatSpec.ko_col _ K) (proj1 A) (proj1 B)). destruct A as [_ A], B as [_ B]. congruence.
    - apply nodup_list, (tw_cols _ _ W).
    - intros x Ix. apply IN in Ix as (r & -> & A). destruct (ocol_row r A) as (c & Ic & En & CR). exists c. split; [now apply ocol_read|]. split; [exact Ic|exact En].
    - intros c Ic. destruct (OrCatSpec.tr_cols _ _ _ _ _ _ T (c_name c) (want_col DOracle c)) as (r & A & E & _); [cbn; apply want_cols_of; [apply (tw_cols _ _ W)|exact Ic]|].
      apply in_map_iff. exists (r, None). split; [exact E|]. apply IN. eauto.
  Qed.

  (** ** Comment *)
  Lemma comment_found : match order _ ("comments " ++ n)%string (q_comments V q) with c :: _ => c | [] => None end = None.
  Proof.
    destruct (order _ ("comments " ++ n)%string (q_comments V q)) as [|c l] eqn:E; [reflexivity|].
    assert (H : In c (q_comments V q)). { apply (Permutation_in _ (AO _ ("comments " ++ n)%string _)). rewrite E. now left. }
    unfold q_comments in H. apply in_flat_map in H as (x & Ix & H). apply in_flat_map in H as (y & Iy & H). rewrite named_is in H.
    destruct (String.eqb (ot_owner x) (oc_owner y) && String.eqb (ot_name x) (oc_table y))%bool eqn:E1; [|destruct H]. destruct (String.eqb (ot_name x) n && listed_table x)%bool eqn:E2; [|destruct H]. destruct H as [<-|[]].
    rewrite !andb_true_iff in E1. rewrite andb_true_iff in E2. destruct E1 as [E1 E3], E2 as [E4 _]. apply String.eqb_eq in E1, E3, E4. destruct Tb as (r & _ & _ & _ & Ic).
    assert (y = OTCom user n None) as ->; [|reflexivity]. apply (keyed_eq _ _ _ _ (OrCatSpec.ko_tcom _ K) Iy Ic). cbn. pose proof (proj1 Al x Ix E4). congruence.
  Qed.

  (** ** Constraints *)
  Definition ouse_of (m : string) (r : oconcol) : bool := (String.eqb (ok_owner r) user && String.eqb (ok_name r) m)%bool.
  Lemma ocon_one m t1 k1 r1 t2 k2 r2 : constraint_of V user t1 m k1 r1 -> constraint_of V user t2 m k2 r2 -> t1 = t2 /\ k1 = k2 /\ r1 = r2.
  Proof. intros A B. pose proof (keyed_eq _ _ _ _ (OrCatSpec.ko_con _ K) A B eq_refl) as E. injection E as -> -> ->. auto. Qed.
  Lemma ocons_in r : In r (q_ocons V q) -> exists ref, constraint_of V user n (OrExplore.cr_name (snd r)) (OrExplore.cr_type (snd r)) ref.
  Proof.
    unfold q_ocons. intros H. apply in_flat_map in H as (x & Ix & H). apply in_flat_map in H as (c & Ic & H). destruct (_ && _)%bool; [|destruct H].
    apply in_flat_map in H as (a & _ & H). apply in_flat_map in H as (b & _ & H). rewrite named_is in H. destruct (String.eqb_spec (on_table x) n) as [E|]; [|destruct H]. destruct H as [<-|[]]. cbn.
    exists (on_ref x). unfold constraint_of. rewrite <- (proj2 (proj2 Al) x Ix E), <- E. now destruct x.
  Qed.
  Lemma ocons_named m kind ref : constraint_of V user n m kind ref ->
    List.filter (fun r => String.eqb (OrExplore.cr_name (snd r)) m) (q_ocons V q) =
    flat_map (fun tc => flat_map (fun r => flat_map (fun rc => [(ok_pos tc, CRow m kind (ok_col tc) (option_map on_table r) (option_map ok_col rc))])
        (PgExplore.left_join (fun rc => match r with Some r => String.eqb (on_owner r) (ok_owner rc) && String.eqb (on_name r) (ok_name rc) | None => false end) (dba_cons_columns V)))
      (PgExplore.left_join (fun r => match ref with Some (o, k) => String.eqb o (on_owner r) && String.eqb k (on_name r) | None => false end) (dba_constraints V)))
    (List.filter (ouse_of m) (dba_cons_columns V)).
  Proof.
    intros C. unfold q_ocons. rewrite filter_flat_map. rewrite (flat_map_one _ _ _ (keyed_nodup _ _ (OrCatSpec.ko_con _ K)) C).
    - cbn [on_owner on_name on_type on_table on_ref]. rewrite filter_flat_map. rewrite IsProofs2.flat_map_filter. apply flat_map_in. intros c Ic. unfold ouse_of. rewrite (String.eqb_sym user), (String.eqb_sym m). destruct (_ && _)%bool; [|reflexivity].
      rewrite filter_flat_map. apply flat_map_in. intros r _. rewrite filter_flat_map. apply flat_map_in. intros rc _. rewrite named_is, String.eqb_refl. cbn. now rewrite String.eqb_refl.
    - intros y Iy D. rewrite filter_flat_map. apply flat_map_nil. intros c Ic. destruct (_ && _)%bool; [|reflexivity]. rewrite filter_flat_map. apply flat_map_nil. intros r _. rewrite filter_flat_map. apply flat_map_nil. intros rc _. rewrite named_is.
      destruct (String.eqb_spec (on_table y) n) as [E|]; [|reflexivity]. cbn. destruct (String.eqb_spec (on_name y) m) as [Em|]; [|reflexivity]. exfalso. apply D. apply (keyed_eq _ _ _ _ (OrCatSpec.ko_con _ K) Iy C). cbn. rewrite (proj2 (proj2 Al) y Iy E). congruence.
  Qed.
  Notation rows := (cons_rows V order q).
  Lemma rows_in r : In r rows -> exists ref, constraint_of V user n (OrExplore.cr_name r) (OrExplore.cr_type r) ref.
  Proof.
    unfold cons_rows. intros H. apply in_map_iff in H as (x & <- & H). apply ocons_in. apply (Permutation_in _ (AO _ ("constraints " ++ n)%string _)). revert H. apply Permutation_in. symmetry. apply sort_perm'.
  Qed.
  Lemma rows_named m (g : oconcol -> crow) cs : Permutation (List.filter (fun r => String.eqb (OrExplore.cr_name (snd r)) m) (q_ocons V q)) (map (fun c => (ok_pos c, g c)) (List.filter (ouse_of m) (dba_cons_columns V))) ->
    cols_of V user m cs -> exists l, map ok_col l = cs /\ List.filter (fun r => String.eqb (OrExplore.cr_name r) m) rows = map g l.
  Proof.
    intros P (l & Pl & Po & Ec). exists l. split; [exact Ec|]. unfold cons_rows. rewrite PgProofs3.filter_map. apply (numbered ok_pos); [apply sorted_filter, sorted_pos| |exact Po].
    etransitivity; [apply perm_filter; etransitivity; [symmetry; apply sort_perm'|apply AO]|]. etransitivity; [exact P|]. apply Permutation_map. symmetry. exact Pl.
  Qed.
  Lemma plain_rows m kind cs : constraint_of V user n m kind None -> cols_of V user m cs -> List.filter (fun r => String.eqb (OrExplore.cr_name r) m) rows = map (fun c => CRow m kind c None None) cs.
  Proof.
    intros C U. destruct (rows_named m (fun c => CRow m kind (ok_col c) None None) cs) as (l & <- & E); [|exact U|now rewrite map_map].
    rewrite (ocons_named m kind None C). rewrite (left_none _ (dba_constraints V)) by reflexivity. cbn [flat_map app]. rewrite (left_none _ (dba_cons_columns V)) by reflexivity. cbn [flat_map app option_map].
    induction (List.filter (ouse_of m) (dba_cons_columns V)) as [|c l IH]; [constructor|]. cbn. now constructor.
  Qed.
  Lemma ref_rows m k kind t2 a b : constraint_of V user n m "R" (Some (user, k)) -> cols_of V user m [a] -> constraint_of V user t2 k kind None -> cols_of V user k [b] ->
    List.filter (fun r => String.eqb (OrExplore.cr_name r) m) rows = [CRow m "R" a (Some t2) (Some b)].
  Proof.
    intros C U C2 (l2 & P2 & _ & E2). destruct l2 as [|c2 [|? ?]]; try discriminate E2. injection E2 as E2. apply Permutation_length_1_inv in P2.
    destruct (rows_named m (fun c => CRow m "R" (ok_col c) (Some t2) (Some b)) [a]) as (l & El & E); [|exact U|]; cycle 1.
    { rewrite E. destruct l as [|c [|? ?]]; try discriminate El. injection El as <-. reflexivity. }
    rewrite (ocons_named m "R" (Some (user, k)) C).
    rewrite (left_one (fun r => (on_owner r, on_name r)) _ (dba_constraints V) (OCon user k kind t2 None)); cycle 1.
    { exact (OrCatSpec.ko_con _ K). }
    { exact C2. }
    { cbn. now rewrite !String.eqb_refl. }
    { intros y Iy Q. rewrite andb_true_iff in Q. destruct Q as [Q1 Q2]. apply String.eqb_eq in Q1, Q2. cbn. congruence. }
    cbn [flat_map app on_owner on_name]. assert (L : PgExplore.left_join (fun rc => (String.eqb user (ok_owner rc) && String.eqb k (ok_name rc))%bool) (dba_cons_columns V) = [Some c2]).
    { unfold PgExplore.left_join. rewrite (IsProofs2.filter_ext_uses _ (ouse_of k)); [unfold ouse_of in *; rewrite P2; reflexivity|]. intros x _. unfold ouse_of. now rewrite (String.eqb_sym user), (String.eqb_sym k). }
    rewrite L. cbn [flat_map app option_map on_table]. rewrite E2.
    induction (List.filter (ouse_of m) (dba_cons_columns V)) as [|c l IH]; [constructor|]. cbn. now constructor.
  Qed.
  (** rows of a constraint are all of its type *)
  Lemma typed_rows m kind ref : constraint_of V user n m kind ref -> List.filter (fun r => String.eqb (OrExplore.cr_name r) m) (of_type kind rows) = List.filter (fun r => String.eqb (OrExplore.cr_name r) m) rows.
  Proof.
    intros C. unfold of_type. assert (G : forall l, (forall r, In r l -> In r rows) -> List.filter (fun r => String.eqb (OrExplore.cr_name r) m) (List.filter (fun r => String.eqb (OrExplore.cr_type r) kind) l) = List.filter (fun r => String.eqb (OrExplore.cr_name r) m) l); [|apply G; auto].
    induction l as [|r l IH]; intros Sb; [reflexivity|]. cbn [List.filter]. rewrite <- IH by (intros x Ix; apply Sb; now right). destruct (String.eqb_spec (OrExplore.cr_type r) kind) as [E|E]; [reflexivity|].
    destruct (String.eqb_spec (OrExplore.cr_name r) m) as [Em|]; [|reflexivity]. exfalso. apply E. destruct (rows_in r (Sb r (or_introl eq_refl))) as (ref' & C'). rewrite Em in C'. destruct (ocon_one _ _ _ _ _ _ _ C C') as (_ & -> & _). reflexivity.
  Qed.
  Lemma type_in kind r : In r (of_type kind rows) -> exists ref, constraint_of V user n (OrExplore.cr_name r) kind ref.
  Proof. unfold of_type. intros H. apply filter_In in H as [H E]. apply String.eqb_eq in E. destruct (rows_in r H) as (ref & C). rewrite E in C. eauto. Qed.

  Lemma oprimary_found : map cr_source (of_type "P" rows) = t_pk t.
  Proof.
    destruct (t_pk t) as [|x pk] eqn:E.
    - destruct (of_type "P" rows) as [|r l] eqn:R; [reflexivity|]. exfalso. destruct (type_in "P" r) as (ref & C); [rewrite R; now left|]. apply (OrCatSpec.tr_pk_only _ _ _ _ _ _ T _ _ C). exact E.
    - destruct (OrCatSpec.tr_pk _ _ _ _ _ _ T) as (m & C & U); [cbn; rewrite E; discriminate|]. cbn in U. rewrite E in U.
      assert (F : List.filter (fun r => String.eqb (OrExplore.cr_name r) m) (of_type "P" rows) = of_type "P" rows). { apply ObjectDictProofs.filter_true. intros r Ir. destruct (type_in "P" r Ir) as (ref & C'). apply String.eqb_eq. exact (OrCatSpec.tr_pk_one _ _ _ _ _ _ T _ _ _ _ C' C). }
      rewrite <- F, (typed_rows m "P" None C), (plain_rows m "P" _ C U), map_map. apply map_id.
  Qed.
  Lemma ocons_shape k : In k (t_constraints t) -> match k with CUnique _ cs => cs <> [] | CForeign _ cs _ rc => cs <> [] /\ List.length cs = List.length rc | _ => False end.
  Proof. intros Ik. pose proof (ot_cons _ _ S k Ik) as H. destruct k; cbn in H; try tauto. destruct H as (L1 & L2 & _). split; [intros ->; discriminate|congruence]. Qed.
  Lemma ounique_found : FactorySpec.tells (map (fun r => (OrExplore.cr_name r, cr_source r)) (of_type "U" rows)) (uniques (t_constraints t)).
  Proof.
    split; [apply uniques_keys, nodup_list, (tw_cons _ _ W)|]. split.
    - intros m cs Im. apply uniques_in in Im. split; [exact (ocons_shape _ Im)|]. destruct (OrCatSpec.tr_unique _ _ _ _ _ _ T _ _ _ (own_con DOracle t W ocons_shape _ Im)) as [C U]. cbn in C, U.
      rewrite PgProofs3.filter_map. cbn [fst]. rewrite (typed_rows m "U" None C), (plain_rows m "U" cs C U), !map_map. apply map_id.
    - intros [m x] Im. cbn. apply in_map_iff in Im as (r & E & Ir). injection E as <- <-. destruct (type_in "U" r Ir) as (ref & C).
      destruct (OrCatSpec.tr_unique_only _ _ _ _ _ _ T _ _ C) as (m' & cs & H). cbn in H. apply want_cons_some in H as [H E']. cbn in E'. subst m'. apply (in_map fst) with (x := (OrExplore.cr_name r, cs)). now apply uniques_in.
  Qed.
  Lemma oforeign_found : PropsFactory.tells_keys (map to_frow (of_type "R" rows)) (foreigns (t_constraints t)).
  Proof.
    split; [apply foreigns_keys, nodup_list, (tw_cons _ _ W)|]. split.
    - intros k Ik. apply foreigns_in in Ik. destruct k as [m cs rt rc]. unfold PropsFactory.key_constr in Ik. cbn [Factory.k_name Factory.k_source Factory.k_target Factory.k_table] in *.
      destruct (ot_cons _ _ S _ Ik) as (L1 & L2 & (a & i & -> & Sp)). destruct cs as [|c [|? ?]]; try discriminate L1. destruct rc as [|c' [|? ?]]; try discriminate L2. split; [discriminate|]. split; [reflexivity|].
      destruct (OrCatSpec.tr_foreign _ _ _ _ _ _ T _ _ _ _ _ (own_con DOracle t W ocons_shape _ Ik)) as (k & kind & C & U & C2 & U2). cbn in C.
      rewrite PgProofs3.filter_map. cbn [to_frow Factory.f_name]. rewrite (typed_rows m "R" _ C), (ref_rows m k kind _ c c' C U C2 U2). cbn. unfold to_frow. cbn. cbn [local_id] in Sp. now rewrite Sp.
    - intros f H. apply in_map_iff in H as (r & <- & Ir). cbn. destruct (type_in "R" r Ir) as (ref & C). destruct (OrCatSpec.tr_foreign_only _ _ _ _ _ _ T _ _ C) as (m & cs & rt & rc & H). cbn in H. apply want_cons_some in H as [H Em]. cbn in Em. rewrite <- Em.
      apply (in_map Factory.k_name) with (x := Factory.FKey m cs rt rc). now apply foreigns_in.
  Qed.

  Lemma or_table_found : exists t', or_table V order q = Ok t' /\ t_name t' = q /\ table_keyed t' /\ table_eqb t' t = true.
  Proof.
    destruct ocolumns_found as (cs & Ec & Pc). unfold or_table. rewrite Ec. cbn [bind].
    destruct (PropsFactory.C32_foreign_regrouped _ _ oforeign_found) as (fks & Ef & Pf). rewrite Ef. cbn [bind]. rewrite comment_found, oprimary_found.
    pose proof (PropsFactory.C32_unique_regrouped _ _ ounique_found) as Pu. set (us := Factory.uf_run _) in *.
    assert (Pk : Permutation (us ++ fks) (t_constraints t)).
    { rewrite Pu, Pf. symmetry. pose proof ocons_shape as CN. clear -CN. revert CN. generalize (t_constraints t). induction l as [|k ks IH]; intros H; [constructor|]. assert (IH' := IH (fun k' I' => H k' (or_intror I'))). clear IH.
      specialize (H k (or_introl eq_refl)). destruct k as [m cs|m cs rt rc|m cs rs|m e]; [| |destruct H|destruct H].
      - cbn. now constructor.
      - cbn. apply Permutation_cons_app. exact IH'. }
    pose proof (tw_cols _ _ W) as N1. apply nodup_list in N1. pose proof (tw_cons _ _ W) as N2. apply nodup_list in N2.
    assert (M1 : List.NoDup (map c_name cs)) by exact (Permutation_NoDup (Permutation_sym (Permutation_map c_name Pc)) N1).
    assert (M2 : List.NoDup (map k_name (us ++ fks))) by exact (Permutation_NoDup (Permutation_sym (Permutation_map k_name Pk)) N2).
    eexists. split; [reflexivity|]. rewrite (make_id c_name cs M1), (make_id k_name _ M2). split; [reflexivity|]. split; [split; [exact M1|exact M2]|].
    unfold table_eqb. cbn [t_enum t_name t_columns t_pk t_constraints t_desc]. rewrite (ot_enum _ _ S), (ot_desc _ _ S). cbn [is_some Bool.eqb]. rewrite !andb_true_iff. repeat split.
    - now apply qid_eqb_eq.
    - apply eqb_perm; [exact M1|exact Pc|]. intros x _. now apply col_eqb_eq.
    - now apply sl_eqb_eq.
    - apply eqb_perm; [exact M2|exact Pk|]. intros x _. now apply constr_eqb_eq.
  Qed.
End Table.
