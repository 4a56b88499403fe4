(** Proofs about the PostgreSQL explorer: tables. *)
From Verif Require Import PyStr QuoteModel QuoteSpec ObjectDict ObjectDictProofs Types EqProofs Objects SqlAst Ddl DbSpec CatSpec KeySpec Discover PgExplore PgCatSpec PgProofs1 PropsDiscover ExploreSpec PgProofs2 NoopProofs.
From Verif Require Factory FactorySpec PropsFactory DiscoverSpec.
From Coq Require Import List String Sorted Permutation Lia.
From stdpp Require Import gmap strings.

Lemma nodup_list {A} (l : list A) : base.NoDup l <-> List.NoDup l.
Proof. split; intros H; [now apply NoDup_ListNoDup|now apply NoDup_ListNoDup]. Qed.
Lemma want_cols_some d cs n x : want_cols d cs !! n = Some x -> exists c, In c cs /\ c_name c = n /\ x = want_col d c.
Proof. unfold want_cols. intros H. apply elem_of_list_to_map_2, elem_of_list_In, in_map_iff in H as (c & [= <- <-] & I). eauto. Qed.
Lemma want_cols_of d cs c : base.NoDup (map c_name cs) -> In c cs -> want_cols d cs !! c_name c = Some (want_col d c).
Proof.
  intros N I. unfold want_cols. apply elem_of_list_to_map_1.
  - rewrite <- list_fmap_compose. exact N.
  - apply elem_of_list_In, in_map_iff. eauto.
Qed.
Lemma want_cons_some ks n k : want_cons ks !! n = Some k -> In k ks /\ k_name k = n.
Proof. unfold want_cons. intros H. apply elem_of_list_to_map_2, elem_of_list_In, in_map_iff in H as (m & [= <- <-] & I). apply filter_In in I. tauto. Qed.
Lemma want_cons_of ks k : base.NoDup (map k_name ks) -> In k ks -> is_alter k = true -> want_cons ks !! k_name k = Some k.
Proof.
  intros N I A. unfold want_cons. apply elem_of_list_to_map_1.
  - rewrite <- list_fmap_compose. apply nodup_list. apply nodup_list in N. clear I A. induction ks as [|x ks IH]; [constructor|]. cbn in N. inversion N as [|? ? H1 H2]; subst. cbn [List.filter]. destruct (is_alter x); [|auto].
    cbn. constructor; [|auto]. intros J. apply H1. apply in_map_iff in J as (y & E & J). apply filter_In in J as [J _]. apply in_map_iff. exists y. auto.
  - apply elem_of_list_In, in_map_iff. exists k. split; [reflexivity|]. now apply filter_In.
Qed.
Lemma or_none_norm c : c <> Some ""%string -> or_none (norm_comment c) = c.
Proof. intros H. destruct c as [[|a x]|]; [congruence|reflexivity|reflexivity]. Qed.
Lemma norm_id c : c <> Some ""%string -> norm_comment c = c.
Proof. intros H. destruct c as [[|a x]|]; [congruence|reflexivity|reflexivity]. Qed.

Definition uniques (ks : list constr) : list (string * list string) := flat_map (fun k => match k with CUnique n cs => [(n, cs)] | _ => [] end) ks.
Definition foreigns (ks : list constr) : list Factory.fkey := flat_map (fun k => match k with CForeign n cs rt rc => [Factory.FKey n cs rt rc] | _ => [] end) ks.
Lemma split_constraints ks : (forall k, In k ks -> constr_seen k) ->
  Permutation ks (map (fun g => CUnique (fst g) (snd g)) (uniques ks) ++ map PropsFactory.key_constr (foreigns ks)).
Proof.
  induction ks as [|k ks IH]; intros H; [constructor|]. specialize (IH (fun x I => H x (or_intror I))). pose proof (H k (or_introl eq_refl)) as S.
  destruct k as [n cs|n cs rt rc|n cs rs|n e]; [| |destruct S|destruct S].
  - cbn. now constructor.
  - cbn. apply Permutation_cons_app. exact IH.
Qed.
Lemma uniques_in ks n cs : In (n, cs) (uniques ks) <-> In (CUnique n cs) ks.
Proof.
  unfold uniques. rewrite in_flat_map. split; [intros (k & I & J); destruct k; try destruct J as [[= -> ->]|[]]; try destruct J; exact I|].
  intros I. exists (CUnique n cs). split; [exact I|now left].
Qed.
Lemma foreigns_in ks k : In k (foreigns ks) <-> In (PropsFactory.key_constr k) ks.
Proof.
  unfold foreigns. rewrite in_flat_map. split; [intros (x & I & J); destruct x; try destruct J as [<-|[]]; try destruct J; exact I|].
  intros I. exists (PropsFactory.key_constr k). split; [exact I|]. destruct k. now left.
Qed.
Lemma uniques_keys ks : List.NoDup (map k_name ks) -> List.NoDup (map fst (uniques ks)).
Proof.
  induction ks as [|k ks IH]; intros N; [constructor|]. cbn in N. inversion N as [|? ? H1 H2]; subst. destruct k; cbn; auto. constructor; [|auto].
  intros I. apply H1. apply in_map_iff in I as ([m cs] & <- & I). apply uniques_in in I. apply (in_map k_name) in I. exact I.
Qed.
Lemma foreigns_keys ks : List.NoDup (map k_name ks) -> List.NoDup (map Factory.k_name (foreigns ks)).
Proof.
  induction ks as [|k ks IH]; intros N; [constructor|]. cbn in N. inversion N as [|? ? H1 H2]; subst. destruct k; cbn; auto. constructor; [|auto].
  intros I. apply H1. apply in_map_iff in I as (m & <- & I). apply foreigns_in in I. apply (in_map k_name) in I. exact I.
Qed.
Lemma filter_comm {A} (p q : A -> bool) l : List.filter p (List.filter q l) = List.filter q (List.filter p l).
Proof. induction l as [|x l IH]; [reflexivity|]. cbn. destruct (q x) eqn:Q, (p x) eqn:E; cbn; rewrite ?Q, ?E, IH; reflexivity. Qed.
Lemma filter_map {A B} (p : B -> bool) (f : A -> B) l : List.filter p (map f l) = map f (List.filter (fun x => p (f x)) l).
Proof. induction l as [|x l IH]; [reflexivity|]. cbn. destruct (p (f x)); cbn; now rewrite IH. Qed.

Section Rel.
  Context (show : option string -> string -> string) (deparse : sqltype -> string -> string) (P : pgcat) (order : forall A : Type, string -> list A -> list A).
  Hypothesis K : keys_ok P.
  Hypothesis OA : oids_apart P.
  Hypothesis AO : any_order order.
  Hypothesis KO : keys_in_order order.
  Hypothesis SH : DiscoverSpec.show_ok show.
  Context (s n : string) (c : cls_row).
  Hypothesis R : relation_at P (s, n) "r" c.
  Notation rel := (cls_oid c).
  Notation q := (Qualified (Some s) n).

  Lemma description_found cm : comment_is P rel InClass 0 cm -> q_table P q = [cm].
  Proof.
    intros C. unfold q_table. rewrite (flat_map_one _ _ c (keyed_nodup cls_oid _ (ko_cls _ K)) (proj1 R)).
    - destruct (comment_found P K OA rel 0 cm C (rel_in P s n c R)) as (d & D1 & D2). destruct (R) as (Ic & _ & _ & Sc).
      rewrite (join_oid nsp_oid _ _ _ (Nsp (relnamespace c) s) (ko_nsp _ K) Sc eq_refl). rewrite D1. cbn [flat_map app]. unfold where_table. rewrite (where_true P s n _ "r" c R) by (cbn; auto). cbn. now rewrite D2.
    - intros y Iy D. nil_join. exfalso. apply D.
      match goal with Hn : In ?m (pg_namespace P), E : N.eqb (relnamespace y) (nsp_oid ?m) = true, W : where_table _ y ?m = true |- _ => exact (where_only P K s n _ "r" c y m R Iy Hn E W) end.
  Qed.

  Context (t : table).
  Hypothesis W : tab_wf DPg t.
  Hypothesis S : tab_seen deparse t.
  Hypothesis T : table_rows show deparse P rel (want_tab DPg t).

  Definition read_col (r : Z * colmeta) : res column :=
    do t <- discover_type (cm_type (snd r)) (cm_array (snd r)); do e <- to_default_expr (cm_default (snd r));
    Ok (Col (cm_name (snd r)) t (cm_nullable (snd r)) e (cm_identity (snd r)) (or_none (cm_desc (snd r)))).
  Lemma read_col_ok a x r : dt_cols (want_tab DPg t) !! attname a = Some x -> shows_col deparse a x r -> exists k, In k (t_columns t) /\ c_name k = attname a /\ read_col r = Ok k.
  Proof.
    intros X (E1 & E2 & E3 & E4 & E5 & E6). cbn in X. apply want_cols_some in X as (k & I & E & ->). exists k. split; [exact I|]. split; [exact E|].
    pose proof (ts_cols _ _ S k I) as CS. unfold read_col. rewrite E2. cbn [bind dc_type want_col]. rewrite E6. cbn [dc_default want_col].
    assert (D : to_default_expr (option_map (fun e => deparse (dc_type (want_col DPg k)) (snd e)) (want_default DPg k)) = Ok (c_default k)).
    { unfold want_default. destruct (c_default k) as [e|] eqn:Q; [|reflexivity]. cbn. exact (cs_default _ _ CS e Q). }
    rewrite D. cbn [bind]. rewrite E1, E3, E4, E5. cbn [dc_null dc_ident dc_comment want_col]. unfold want_comment. rewrite (or_none_norm _ (cs_desc _ _ CS)). rewrite <- E. now destruct k.
  Qed.
  Lemma table_columns : exists cs, map_res read_col (sort_by by_num (order _ ("columns " ++ n)%string (q_columns P q))) = Ok cs /\ Permutation cs (t_columns t).
  Proof.
    assert (F := columns_found show deparse P K OA SH s n c R _ T).
    assert (Fq : forall k x, dt_cols (want_tab DPg t) !! k = Some x -> pg_faithful (dc_type x)).
    { intros k x X. cbn in X. apply want_cols_some in X as (y & I & _ & ->). exact (cs_type _ _ (ts_cols _ _ S y I)). }
    specialize (F Fq). assert (Pm : Permutation (q_columns P q) (sort_by by_num (order _ ("columns " ++ n)%string (q_columns P q)))) by (etransitivity; [symmetry; apply AO|apply sort_perm']).
    destruct (forall2_perm _ _ _ _ F Pm) as (l' & Pl & F'). revert F'. generalize (sort_by by_num (order _ ("columns " ++ n)%string (q_columns P q))). intros rows F'. clear F Pm.
    assert (G : exists cs, map_res read_col rows = Ok cs /\ Forall2 (fun a k => In k (t_columns t) /\ c_name k = attname a) l' cs).
    { clear Pl. induction F' as [|a m l m' (x & X & Sx) F IH]; [exists []; split; [reflexivity|constructor]|]. destruct IH as (cs & E & G). destruct (read_col_ok a x m X Sx) as (k & I & N & Ek).
      exists (k :: cs). cbn [map_res]. rewrite Ek. cbn [bind]. rewrite E. split; [reflexivity|]. constructor; auto. }
    destruct G as (cs & E & G). exists cs. split; [exact E|].
    assert (Nm : map c_name cs = map attname l') by (apply (forall2_keys (fun a k => In k (t_columns t) /\ c_name k = attname a)); [intros a b [_ Z]; exact Z|exact G]).
    pose proof (tw_cols _ _ W) as ND. apply nodup_list in ND.
    apply (perm_by_key c_name).
    - rewrite Nm. apply (Permutation_NoDup (Permutation_map attname Pl)). apply (lives_names P K). exact (tr_names _ _ _ _ _ T).
    - exact ND.
    - intros x I. destruct (forall2_in_r _ _ _ _ G I) as (a & _ & J & _). exact J.
    - intros k I. rewrite Nm. destruct (tr_cols _ _ _ _ _ T (c_name k) (want_col DPg k)) as (a & L & E' & _); [apply want_cols_of; [apply (tw_cols _ _ W)|exact I]|].
      rewrite <- E'. apply in_map. apply (Permutation_in _ Pl). now apply lives_in.
  Qed.

  Notation rows := (order conmeta ("constraints " ++ n)%string (q_constraints P q)).
  Lemma row_of m : In m rows -> exists con, In con (pg_constraint P) /\ conrelid con = rel /\ km_name m = conname con /\ km_type m = contype con.
  Proof.
    intros I. apply (Permutation_in _ (AO _ _ _)) in I. rewrite (constraints_are P s n) in I. apply in_flat_map in I as (con & Ic & I). exists con. split; [exact Ic|].
    destruct (N.eq_dec (conrelid con) rel) as [E|E]; [|rewrite (con_other P K s n c R) in I by auto; destruct I]. split; [exact E|]. now apply (con_names P s n).
  Qed.
  Lemma con_unique k k' : In k (pg_constraint P) -> In k' (pg_constraint P) -> conrelid k = rel -> conrelid k' = rel -> conname k = conname k' -> k = k'.
  Proof. intros I I' E E' N. apply (keyed_eq (fun k => (conrelid k, conname k)) _ _ _ (ko_con _ K) I I'). congruence. Qed.

  Lemma primary_found : primary_of rows = t_pk t.
  Proof.
    destruct (existsb (fun k => N.eqb (conrelid k) rel && String.eqb (contype k) "p")%bool (pg_constraint P)) eqn:Ex.
    - apply existsb_exists in Ex as (con & I & E). apply andb_true_iff in E as [E1 E2]. apply N.eqb_eq in E1. apply String.eqb_eq in E2.
      destruct (tr_pk _ _ _ _ _ T con I E1 E2) as (_ & _ & Nu & F1 & F2). unfold primary_of.
      rewrite (filter_ext_in _ (fun r => String.eqb (km_name r) (conname con))).
      + rewrite KO. rewrite (named_rows P K s n c R con _ I E1 eq_refl). rewrite (con_key P K s n c R con _ E1 (or_introl E2) Nu F1 F2). rewrite map_map. cbn [km_source]. apply map_id.
      + intros m Im. destruct (row_of m Im) as (con' & I' & E' & Nm & Ty). rewrite Nm, Ty. destruct (String.eqb_spec (conname con') (conname con)) as [Q|Q].
        * rewrite (con_unique con' con I' I E' E1 Q), E2. reflexivity.
        * apply String.eqb_neq. intros Z. apply Q. exact (tr_pk_one _ _ _ _ _ T con' con I' I E' E1 Z E2).
    - assert (NP : forall k, In k (pg_constraint P) -> conrelid k = rel -> contype k <> "p"%string).
      { intros k I E Z. assert (existsb (fun k => N.eqb (conrelid k) rel && String.eqb (contype k) "p")%bool (pg_constraint P) = true); [|congruence]. apply existsb_exists. exists k. split; [exact I|]. rewrite E, Z, N.eqb_refl. reflexivity. }
      destruct (t_pk t) as [|x pk] eqn:Q.
      + unfold primary_of. rewrite filter_none; [reflexivity|]. intros m Im. destruct (row_of m Im) as (con & I & E & _ & Ty). rewrite Ty. apply String.eqb_neq. now apply NP.
      + exfalso. destruct (tr_pk_some _ _ _ _ _ T) as (k & I & (Z & E & _)); [cbn; rewrite Q; discriminate|]. exact (NP k I E Z).
  Qed.

  Lemma own_row k : In k (t_constraints t) -> exists con, In con (pg_constraint P) /\ constr_row P rel (k_name k) con k.
  Proof.
    intros I. apply (tr_cons _ _ _ _ _ T). apply want_cons_of; [apply (tw_cons _ _ W)|exact I|]. pose proof (ts_cons _ _ S k I) as Z. destruct k; cbn in *; tauto.
  Qed.
  Lemma row_constr con : In con (pg_constraint P) -> conrelid con = rel -> contype con = "u"%string \/ contype con = "f"%string ->
    exists k, In k (t_constraints t) /\ k_name k = conname con /\ constr_row P rel (conname con) con k.
  Proof.
    intros I E Ty. destruct (tr_cons_only _ _ _ _ _ T con I E Ty) as [k Hk]. cbn in Hk. apply want_cons_some in Hk as [Ik Nk]. exists k. split; [exact Ik|]. split; [exact Nk|].
    destruct (own_row k Ik) as (con' & I' & C'). rewrite Nk in C'. pose proof (con_unique con' con I' I (proj1 C') E (proj1 (proj2 C'))) as <-. exact C'.
  Qed.

  Lemma unique_found : FactorySpec.tells (unique_rows rows) (uniques (t_constraints t)).
  Proof.
    split; [apply uniques_keys, nodup_list, (tw_cons _ _ W)|]. split.
    - intros m cs I. apply uniques_in in I. split; [exact (ts_cons _ _ S _ I)|]. destruct (own_row _ I) as (con & Ic & (E & Nm & Ty & Nu & F1 & F2)). cbn in Nm.
      unfold unique_rows. rewrite filter_map, filter_comm. cbn [fst]. rewrite KO, (named_rows P K s n c R con _ Ic E Nm). rewrite (con_key P K s n c R con cs E (or_intror Ty) Nu F1 F2).
      rewrite ObjectDictProofs.filter_true; [rewrite !map_map; apply map_id|]. intros x Ix. apply in_map_iff in Ix as (y & <- & _). cbn. rewrite Ty. reflexivity.
    - intros [m x] I. unfold unique_rows in I. apply in_map_iff in I as (r & [= <- <-] & I). apply filter_In in I as [I Ty]. apply String.eqb_eq in Ty. destruct (row_of r I) as (con & Ic & E & Nm & Ty'). rewrite Ty in Ty'.
      destruct (row_constr con Ic E (or_introl (eq_sym Ty'))) as (k & Ik & Nk & (_ & _ & C)). cbn [fst]. rewrite Nm, <- Nk. destruct k as [a cs|a cs rt rc|a cs rs|a e]; cbn in C.
      + apply (in_map fst) with (x := (a, cs)). now apply uniques_in.
      + destruct C as [Z _]. congruence.
      + destruct C.
      + congruence.
  Qed.
  Lemma foreign_found : PropsFactory.tells_keys (foreign_rows rows) (foreigns (t_constraints t)).
  Proof.
    split; [apply foreigns_keys, nodup_list, (tw_cons _ _ W)|]. split.
    - intros k I. apply foreigns_in in I. destruct k as [m cs rt rc]. unfold PropsFactory.key_constr in I. cbn [Factory.k_name Factory.k_source Factory.k_target Factory.k_table] in *.
      destruct (ts_cons _ _ S _ I) as (NE & Ln & (s' & n' & ->)). split; [exact NE|]. split; [exact Ln|]. destruct (own_row _ I) as (con & Ic & (E & Nm & Ty & Nu & (ref & Ir & Or & Rn & Sc & Nu'))). cbn in Nm, Rn, Sc.
      unfold foreign_rows. rewrite filter_map, filter_comm. cbn [Factory.f_name]. rewrite KO, (named_rows P K s n c R con _ Ic E Nm).
      rewrite (con_foreign P K s n c R con cs rc ref s' E Ty Nu Nu' Ln Ir Or Sc).
      rewrite ObjectDictProofs.filter_true; [rewrite !map_map; apply map_ext; intros [x y]; cbn; now rewrite Nm, Rn|]. intros x Ix. apply in_map_iff in Ix as (y & <- & _). cbn. rewrite Ty. reflexivity.
    - intros f I. unfold foreign_rows in I. apply in_map_iff in I as (r & <- & I). apply filter_In in I as [I Ty]. apply String.eqb_eq in Ty. destruct (row_of r I) as (con & Ic & E & Nm & Ty'). rewrite Ty in Ty'.
      destruct (row_constr con Ic E (or_intror (eq_sym Ty'))) as (k & Ik & Nk & (_ & _ & C)). cbn [Factory.f_name]. rewrite Nm, <- Nk. destruct k as [a cs|a cs rt rc|a cs rs|a e]; cbn in C.
      + destruct C as [Z _]. congruence.
      + apply (in_map Factory.k_name) with (x := Factory.FKey a cs rt rc). now apply foreigns_in.
      + destruct C.
      + congruence.
  Qed.

  Lemma table_found : t_name t = q -> exists t', get_table P order q = Ok t' /\ t_name t' = q /\ table_keyed t' /\ table_eqb t' t = true.
  Proof.
    intros Nm. unfold get_table. cbn [local_id]. rewrite (description_found _ (tr_comment _ _ _ _ _ T)).
    assert (D : order (option string) ("table " ++ n)%string [dt_comment (want_tab DPg t)] = [dt_comment (want_tab DPg t)]) by (apply Permutation_length_1_inv; symmetry; apply AO).
    rewrite D. destruct table_columns as (cs & E & Pc). unfold read_col in E. rewrite E. cbn [bind].
    destruct (PropsFactory.C32_foreign_regrouped _ _ foreign_found) as (fks & Ef & Pf). rewrite Ef. cbn [bind].
    pose proof (PropsFactory.C32_unique_regrouped _ _ unique_found) as Pu.
    assert (Pk : Permutation (Factory.uf_run (unique_rows rows) ++ fks) (t_constraints t)).
    { rewrite Pu, Pf. symmetry. apply split_constraints. intros k I. exact (ts_cons _ _ S k I). }
    pose proof (tw_cols _ _ W) as N1. apply nodup_list in N1. pose proof (tw_cons _ _ W) as N2. apply nodup_list in N2.
    assert (M1 : List.NoDup (map c_name cs)) by exact (Permutation_NoDup (Permutation_sym (Permutation_map c_name Pc)) N1).
    assert (M2 : List.NoDup (map k_name (Factory.uf_run (unique_rows rows) ++ fks))) by exact (Permutation_NoDup (Permutation_sym (Permutation_map k_name Pk)) N2).
    eexists. split; [reflexivity|]. rewrite (make_id c_name cs M1), (make_id k_name _ M2). split; [reflexivity|]. split; [split; [exact M1|exact M2]|].
    unfold table_eqb. cbn [t_enum t_name t_columns t_pk t_constraints t_desc]. rewrite (ts_enum _ _ S). cbn [is_some Bool.eqb].
    rewrite Nm, primary_found. rewrite !andb_true_iff. repeat split.
    - now apply qid_eqb_eq.
    - apply eqb_perm; [exact M1|exact Pc|]. intros x _. now apply col_eqb_eq.
    - now apply sl_eqb_eq.
    - apply eqb_perm; [exact M2|exact Pk|]. intros x _. now apply constr_eqb_eq.
    - apply os_eqb_eq. cbn. apply norm_id, (ts_desc _ _ S).
  Qed.
End Rel.
