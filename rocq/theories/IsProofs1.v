(** Proofs about the explorers that read the information schema: constraints and columns of a table. *)
From Verif Require Import PyStr QuoteModel QuoteSpec ObjectDict ObjectDictProofs Types EqProofs Objects SqlAst Ddl DbSpec CatSpec KeySpec Discover PropsDiscover PgProofs1 NoopProofs PgProofs3 PgProofs4 IsExplore IsCatSpec IsSeenSpec.
From Verif Require Factory FactorySpec PropsFactory DiscoverSpec PgExplore.
From Coq Require Import List String Sorted Permutation Lia.
From stdpp Require Import gmap strings.

Lemma by_pos_total {A} (a b : Z * A) : by_pos a b = true \/ by_pos b a = true.
Proof. unfold by_pos. rewrite !Z.leb_le. lia. Qed.
Lemma by_pos_trans {A} (a b c : Z * A) : by_pos a b = true -> by_pos b c = true -> by_pos a c = true.
Proof. unfold by_pos. rewrite !Z.leb_le. lia. Qed.
Lemma sorted_pos {A} (l : list (Z * A)) : StronglySorted (fun a b => (fst a <= fst b)%Z) (PgExplore.sort_by by_pos l).
Proof.
  pose proof (sort_sorted' by_pos by_pos_total by_pos_trans l) as S. induction S as [|x l' S IH F]; constructor; [exact IH|].
  eapply List.Forall_impl; [|exact F]. intros y H. now apply Z.leb_le.
Qed.
Lemma seq_sorted {A} (f : A -> Z) l : forall k, map f l = map Z.of_nat (seq k (List.length l)) -> StronglySorted (fun a b => (f a < f b)%Z) l.
Proof.
  induction l as [|x l IH]; intros k E; [constructor|]. cbn in E. injection E as E1 E2. constructor; [exact (IH _ E2)|].
  apply List.Forall_forall. intros y I. apply (in_map f) in I. rewrite E2 in I. apply in_map_iff in I as (m & <- & I). apply in_seq in I. lia.
Qed.
Lemma perm_filter {A} (p : A -> bool) l m : Permutation l m -> Permutation (List.filter p l) (List.filter p m).
Proof.
  induction 1 as [|x l m H IH|x y l|l m k H1 IH1 H2 IH2]; cbn; [constructor|destruct (p x); auto| |etransitivity; eauto].
  destruct (p x), (p y); try constructor; reflexivity.
Qed.
Lemma flat_map_if {A B} (p : A -> bool) (f : A -> B) l : flat_map (fun x => if p x then [f x] else []) l = map f (List.filter p l).
Proof. induction l as [|x l IH]; [reflexivity|]. cbn. destruct (p x); cbn; now rewrite IH. Qed.

Section Rel.
  Context (I : infoschema) (order : forall A : Type, string -> list A -> list A) (literal : string -> option (string * string)) (current : string).
  Hypothesis K : keys_ok I.
  Hypothesis AO : any_order order.
  Context (p : string * string) (q : qid).
  Hypothesis WT : forall a b, where_table literal current q a b = (String.eqb a (fst p) && String.eqb b (snd p))%bool.

  Notation mine := (fun r => String.eqb (ku_tschema r) (fst p) && String.eqb (ku_table r) (snd p))%bool.
  Definition use_of (n : string) (r : iuse) : bool := (String.eqb (ku_schema r) (fst p) && String.eqb (ku_name r) n && String.eqb (ku_tschema r) (fst p) && String.eqb (ku_table r) (snd p))%bool.

  Lemma keys_in kind r : In r (q_keys I literal current q kind) -> constraint_at I p (fst (snd r)) kind.
  Proof.
    unfold q_keys. intros H. apply in_flat_map in H as (tab & It & H). apply in_flat_map in H as (kcu & Ik & H).
    destruct (String.eqb (tc_schema tab) (ku_schema kcu) && String.eqb (tc_name tab) (ku_name kcu))%bool eqn:E; [|destruct H].
    rewrite !WT in H. match type of H with In _ (if ?b then _ else _) => destruct b eqn:E2 end; [|destruct H]. destruct H as [<-|[]]. cbn.
    rewrite !andb_true_iff in E. rewrite !andb_true_iff in E2. destruct E as [E1 E3], E2 as [[[E4 E5] _] E6]. apply String.eqb_eq in E1, E3, E4, E5, E6.
    pose proof (ko_con_schema _ K tab It) as S. unfold constraint_at. destruct tab as [a b c d e]. cbn in *. subst. rewrite S in It. exact It.
  Qed.
  Lemma con_name_one n kind kind' : constraint_at I p n kind -> constraint_at I p n kind' -> kind = kind'.
  Proof.
    unfold constraint_at. intros A B. pose proof (keyed_eq _ _ _ _ (ko_con _ K) A B eq_refl) as E. now injection E.
  Qed.
  Lemma keys_named n kind : constraint_at I p n kind ->
    List.filter (fun r => String.eqb (fst (snd r)) n) (q_keys I literal current q kind) = map (fun r => (ku_pos r, (n, ku_col r))) (List.filter (use_of n) (is_usage I)).
  Proof.
    intros C. unfold q_keys. rewrite filter_flat_map.
    rewrite (flat_map_one _ _ _ (keyed_nodup _ _ (ko_con _ K)) C).
    - cbn [tc_schema tc_name tc_tschema tc_table tc_type]. rewrite filter_flat_map, <- flat_map_if. apply flat_map_in. intros r Ir.
      rewrite !WT, !String.eqb_refl. unfold use_of. rewrite (String.eqb_sym (fst p) (ku_schema r)), (String.eqb_sym n (ku_name r)).
      destruct (String.eqb_spec (ku_schema r) (fst p)); [|reflexivity]. destruct (String.eqb_spec (ku_name r) n) as [En|]; [|reflexivity]. cbn [andb].
      destruct (String.eqb (ku_tschema r) (fst p) && String.eqb (ku_table r) (snd p))%bool; [|reflexivity]. cbn. rewrite En, String.eqb_refl. reflexivity.
    - intros tab It D. rewrite filter_flat_map. apply flat_map_nil. intros r Ir.
      destruct (String.eqb (tc_schema tab) (ku_schema r) && String.eqb (tc_name tab) (ku_name r))%bool eqn:E; [|reflexivity]. rewrite !WT.
      match goal with |- context [if ?b then [_] else _] => destruct b eqn:E2 end; [|reflexivity]. cbn. destruct (String.eqb_spec (ku_name r) n) as [En|]; [|reflexivity]. exfalso. apply D.
      rewrite !andb_true_iff in E. rewrite !andb_true_iff in E2. destruct E as [E1 E3], E2 as [[[E4 E5] _] E6]. apply String.eqb_eq in E1, E3, E4, E5, E6.
      pose proof (ko_con_schema _ K tab It) as S. destruct tab as [a b c d e]. cbn in *. subst. now rewrite S.
  Qed.
  (** rows of a constraint, sorted by position *)
  Lemma sorted_uses {B} (g : iuse -> B) (rows : list (Z * B)) n cols :
    StronglySorted (fun a b => (fst a <= fst b)%Z) rows -> Permutation rows (map (fun r => (ku_pos r, g r)) (List.filter (use_of n) (is_usage I))) ->
    uses I p n cols -> exists l, map (fun r => (ku_col r, ku_ref r)) l = cols /\ map snd rows = map g l /\ (forall r, In r l -> use_of n r = true).
  Proof.
    intros S Pm (l & Pl & Po & Ec). exists l. split; [exact Ec|]. split.
    - assert (E : rows = map (fun r => (ku_pos r, g r)) l).
      { apply (sorted_unique fst); [etransitivity; [exact Pm|]; apply Permutation_map; symmetry; exact Pl|exact S|]. apply (seq_sorted fst _ 1). rewrite map_map, map_length. exact Po. }
      rewrite E, map_map. reflexivity.
    - intros r Ir. apply (Permutation_in _ Pl), filter_In in Ir. tauto.
  Qed.
  Lemma keys_of x n kind cs : constraint_at I p n kind -> uses I p n (plain_cols cs) ->
    List.filter (fun r => String.eqb (fst r) n) (map snd (PgExplore.sort_by by_pos (order _ x (q_keys I literal current q kind)))) = map (fun c => (n, c)) cs.
  Proof.
    intros C U. rewrite PgProofs3.filter_map.
    destruct (sorted_uses (fun r => (n, ku_col r)) (List.filter (fun r => String.eqb (fst (snd r)) n) (PgExplore.sort_by by_pos (order _ x (q_keys I literal current q kind)))) n (plain_cols cs)) as (l & E1 & E2 & _).
    - apply sorted_filter, sorted_pos.
    - rewrite <- (keys_named n kind C). apply perm_filter. etransitivity; [symmetry; apply sort_perm'|apply AO].
    - exact U.
    - rewrite E2. assert (E3 : map ku_col l = cs). { apply (f_equal (map fst)) in E1. rewrite map_map in E1. etransitivity; [exact E1|]. unfold plain_cols. rewrite map_map. apply map_id. }
      rewrite <- E3, map_map. reflexivity.
  Qed.

  Lemma table_rows_found r : table_at I p r -> q_table I literal current q = [r] /\ has_table I literal current q = true.
  Proof.
    intros [Ir Er]. assert (E : q_table I literal current q = [r]).
    { unfold q_table. rewrite (flat_map_one _ _ r (keyed_nodup _ _ (ko_tab _ K)) Ir).
      - rewrite WT. rewrite <- Er. cbn. now rewrite !String.eqb_refl.
      - intros y Iy D. rewrite WT. destruct (_ && _)%bool eqn:E; [|reflexivity]. exfalso. apply D. apply (keyed_eq _ _ _ _ (ko_tab _ K) Iy Ir). apply andb_true_iff in E as [E1 E2]. apply String.eqb_eq in E1, E2. destruct p. cbn in *. congruence. }
    split; [exact E|]. unfold has_table. now rewrite E.
  Qed.

  Context (d : dialect) (t : table) (column_row : icol -> dbcol -> Prop) (foreign_row : string * string -> string -> list string -> qid -> list string -> Prop).
  Hypothesis W : tab_wf d t.
  Hypothesis T : table_rows I column_row foreign_row p (want_tab d t).

  Lemma primary_found : primary_key I order literal current q = t_pk t.
  Proof.
    unfold primary_key. rewrite <- (map_map snd snd). set (rows := map snd (PgExplore.sort_by by_pos _)).
    assert (R : forall r, In r rows -> constraint_at I p (fst r) "PRIMARY KEY"). { intros r Ir. unfold rows in Ir. apply in_map_iff in Ir as (x & <- & Ix). apply (keys_in _ x). apply (Permutation_in _ (AO _ ("primary " ++ local_id q)%string _)). revert Ix. apply Permutation_in. symmetry. apply sort_perm'. }
    destruct (t_pk t) as [|x pk] eqn:E.
    - destruct rows as [|r rows']; [reflexivity|]. exfalso. apply (tr_pk_only _ _ _ _ _ T _ (R r (or_introl eq_refl))). exact E.
    - destruct (tr_pk _ _ _ _ _ T) as (n & C & U); [cbn; rewrite E; discriminate|]. cbn in U. rewrite E in U.
      assert (F : List.filter (fun r => String.eqb (fst r) n) rows = rows). { apply ObjectDictProofs.filter_true. intros r Ir. apply String.eqb_eq. exact (tr_pk_one _ _ _ _ _ T _ _ (R r Ir) C). }
      rewrite <- F. unfold rows. rewrite (keys_of _ n _ (x :: pk) C U), map_map. apply map_id.
  Qed.

  Hypothesis CN : forall k, In k (t_constraints t) -> match k with CUnique _ cs => cs <> [] | CForeign _ cs _ rc => cs <> [] /\ List.length cs = List.length rc | _ => False end.
  Lemma own_con k : In k (t_constraints t) -> dt_cons (want_tab d t) !! k_name k = Some k.
  Proof. intros Ik. cbn. apply want_cons_of; [apply (tw_cons _ _ W)|exact Ik|]. specialize (CN k Ik). destruct k; cbn in *; tauto. Qed.
  Lemma unique_found : FactorySpec.tells (unique_rows I order literal current q) (uniques (t_constraints t)).
  Proof.
    split; [apply uniques_keys, nodup_list, (tw_cons _ _ W)|]. split.
    - intros m cs Im. apply uniques_in in Im. split; [exact (CN _ Im)|]. destruct (tr_unique _ _ _ _ _ T _ _ _ (own_con _ Im)) as [C U]. cbn in C, U.
      unfold unique_rows. rewrite (keys_of _ m _ cs C U), map_map. apply map_id.
    - intros [m x] Im. cbn. unfold unique_rows in Im. apply in_map_iff in Im as (r & E & Ir).
      assert (C : constraint_at I p m "UNIQUE"). { replace m with (fst (snd r)) by (rewrite E; reflexivity). apply (keys_in _ r). apply (Permutation_in _ (AO _ ("unique " ++ local_id q)%string _)). revert Ir. apply Permutation_in. symmetry. apply sort_perm'. }
      destruct (tr_unique_only _ _ _ _ _ T m C) as (m' & cs & H). cbn in H. apply want_cons_some in H as [H E']. cbn in E'. subst m'. apply (in_map fst) with (x := (m, cs)). now apply uniques_in.
  Qed.

  (** the rows for the columns *)
  Definition col_of (r : icol) : bool := (String.eqb (ic_schema r) (fst p) && String.eqb (ic_table r) (snd p))%bool.
  Lemma col_at r : In r (is_columns I) /\ col_of r = true <-> column_at I p r.
  Proof. unfold column_at, col_of. rewrite andb_true_iff, !String.eqb_eq. destruct p as [a b]. cbn. intuition congruence. Qed.
  Lemma cols_are : Permutation (column_rows I order literal current q) (List.filter col_of (is_columns I)).
  Proof.
    unfold column_rows. assert (E : map snd (q_columns I literal current q) = List.filter col_of (is_columns I)).
    { unfold q_columns. rewrite map_flat_map. rewrite <- (map_id (List.filter _ _)), <- (flat_map_if col_of (fun x => x)). apply flat_map_in. intros r _. rewrite WT. fold (col_of r). now destruct (col_of r). }
    rewrite <- E. apply Permutation_map. etransitivity; [symmetry; apply sort_perm'|apply AO].
  Qed.
  Lemma cols_in r : In r (column_rows I order literal current q) <-> column_at I p r.
  Proof. rewrite <- col_at, <- filter_In. split; apply Permutation_in; [|symmetry]; exact cols_are. Qed.
  Lemma cols_names : List.NoDup (map ic_name (column_rows I order literal current q)).
  Proof.
    apply (Permutation_NoDup (Permutation_sym (Permutation_map ic_name cols_are))).
    assert (N : List.NoDup (List.filter col_of (is_columns I))) by (apply List.NoDup_filter; exact (keyed_nodup _ _ (ko_col _ K))).
    assert (U : forall a b, In a (List.filter col_of (is_columns I)) -> In b (List.filter col_of (is_columns I)) -> ic_name a = ic_name b -> a = b).
    { intros a b Ia Ib E. apply filter_In in Ia as [Ia Ca], Ib as [Ib Cb]. apply (keyed_eq _ _ _ _ (ko_col _ K) Ia Ib). destruct (proj1 (col_at a) (conj Ia Ca)) as [_ E1], (proj1 (col_at b) (conj Ib Cb)) as [_ E2]. congruence. }
    revert N U. generalize (List.filter col_of (is_columns I)). induction l as [|x l IH]; intros N U; [constructor|]. inversion N; subst. cbn. constructor.
    - intros J. apply in_map_iff in J as (y & E & J). rewrite (U y x) in J; [contradiction|now right|now left|exact E].
    - apply IH; [assumption|]. intros a b Ia Ib. apply U; now right.
  Qed.
  Lemma columns_found (read : icol -> res column) :
    (forall r c, column_at I p r -> In c (t_columns t) -> ic_name r = c_name c -> column_row r (want_col d c) -> read r = Ok c) ->
    exists cs, map_res read (column_rows I order literal current q) = Ok cs /\ Permutation cs (t_columns t).
  Proof.
    intros RD. pose proof (tw_cols _ _ W) as ND. apply nodup_list in ND.
    assert (Q : forall r, In r (column_rows I order literal current q) -> exists c, read r = Ok c /\ In c (t_columns t) /\ c_name c = ic_name r).
    { intros r Ir. apply cols_in in Ir. destruct (tr_only _ _ _ _ _ T r Ir) as [x X]. destruct (tr_cols _ _ _ _ _ T _ x X) as (r' & A & E & CR). cbn in X. apply want_cols_some in X as (c & Ic & En & ->). exists c.
      assert (r' = r) as ->. { apply (keyed_eq _ _ _ _ (ko_col _ K) (proj1 A) (proj1 Ir)). destruct A as [_ A], Ir as [_ Ir]. congruence. }
      split; [|split; [exact Ic|exact En]]. apply RD; auto. }
    assert (F : exists cs, Forall2 (fun r c => read r = Ok c /\ In c (t_columns t) /\ c_name c = ic_name r) (column_rows I order literal current q) cs).
    { revert Q. generalize (column_rows I order literal current q). induction l as [|r l IH]; intros Q; [exists []; constructor|]. destruct (Q r (or_introl eq_refl)) as (c & Hc). destruct IH as (cs & F); [intros x Ix; apply Q; now right|]. exists (c :: cs). now constructor. }
    destruct F as (cs & F). exists cs. split; [apply map_res_forall2; clear -F; induction F as [|a b l m (H & _) F IH]; constructor; auto|].
    assert (Nm : map c_name cs = map ic_name (column_rows I order literal current q)) by (apply (forall2_keys (fun r c => read r = Ok c /\ In c (t_columns t) /\ c_name c = ic_name r)); [intros a b (_ & _ & H); exact H|exact F]).
    apply (perm_by_key c_name).
    - rewrite Nm. exact cols_names.
    - exact ND.
    - intros c Ic. destruct (forall2_in_r _ _ _ _ F Ic) as (r & _ & _ & H & _). exact H.
    - intros c Ic. rewrite Nm. destruct (tr_cols _ _ _ _ _ T (c_name c) (want_col d c)) as (r & A & E & _); [cbn; apply want_cols_of; [apply (tw_cols _ _ W)|exact Ic]|]. rewrite <- E. apply in_map. now apply cols_in.
  Qed.

  (** ** The table *)
  Lemma assemble columns foreign description r : t_enum t = None -> t_name t = q -> table_at I p r ->
    (exists cs, columns = Ok cs /\ Permutation cs (t_columns t)) -> PropsFactory.tells_keys foreign (foreigns (t_constraints t)) -> description = Ok (t_desc t) ->
    exists t', get_table I order literal current columns foreign description q = Ok t' /\ t_name t' = q /\ table_keyed t' /\ table_eqb t' t = true.
  Proof.
    intros En Nm Tr (cs & Ec & Pc) FF Ed. unfold get_table. rewrite (proj2 (table_rows_found r Tr)). subst columns description. cbn [bind].
    destruct (PropsFactory.C32_foreign_regrouped _ _ FF) as (fks & Ef & Pf). rewrite Ef. cbn [bind].
    pose proof (PropsFactory.C32_unique_regrouped _ _ unique_found) as Pu.
    assert (Pk : Permutation (Factory.uf_run (unique_rows I order literal current q) ++ fks) (t_constraints t)).
    { rewrite Pu, Pf. symmetry. clear -CN. revert CN. generalize (t_constraints t). induction l as [|k ks IH]; intros H; [constructor|]. assert (IH' := IH (fun k' I' => H k' (or_intror I'))). clear IH.
      specialize (H k (or_introl eq_refl)). destruct k as [n cs|n cs rt rc|n cs rs|n e]; [| |destruct H|destruct H].
      - cbn. now constructor.
      - cbn. apply Permutation_cons_app. exact IH'. }
    pose proof (tw_cols _ _ W) as N1. apply nodup_list in N1. pose proof (tw_cons _ _ W) as N2. apply nodup_list in N2.
    assert (M1 : List.NoDup (map c_name cs)) by exact (Permutation_NoDup (Permutation_sym (Permutation_map c_name Pc)) N1).
    assert (M2 : List.NoDup (map k_name (Factory.uf_run (unique_rows I order literal current q) ++ fks))) by exact (Permutation_NoDup (Permutation_sym (Permutation_map k_name Pk)) N2).
    eexists. split; [reflexivity|]. rewrite (make_id c_name cs M1), (make_id k_name _ M2). split; [reflexivity|]. split; [split; [exact M1|exact M2]|].
    unfold table_eqb. cbn [t_enum t_name t_columns t_pk t_constraints t_desc]. rewrite En. cbn [is_some Bool.eqb].
    rewrite Nm, primary_found. rewrite !andb_true_iff. repeat split.
    - now apply qid_eqb_eq.
    - apply eqb_perm; [exact M1|exact Pc|]. intros x _. now apply col_eqb_eq.
    - now apply sl_eqb_eq.
    - apply eqb_perm; [exact M2|exact Pk|]. intros x _. now apply constr_eqb_eq.
    - now apply os_eqb_eq.
  Qed.
End Rel.
