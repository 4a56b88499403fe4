(** Proofs about the explorers of MySQL and SQL Server: a table. *)
From Verif Require Import PyStr QuoteModel QuoteSpec QuoteProofs ObjectDict ObjectDictProofs Types EqProofs Objects SqlAst Ddl DbSpec CatSpec KeySpec Discover PropsDiscover PgProofs1 NoopProofs PgProofs3 PgProofs4 IsExplore IsCatSpec IsSeenSpec IsProofs1.
From Verif Require Factory FactorySpec PropsFactory DiscoverSpec PgExplore.
From Coq Require Import List String Sorted Permutation Lia.
From stdpp Require Import gmap strings.

Lemma contains_spec sub s : contains sub s = true <-> (exists a b, s = a ++ sub ++ b)%string.
Proof.
  induction s as [|c s IH]; cbn [contains]; rewrite orb_true_iff, starts_with_spec.
  - split; [intros [(r & E)|]; [exists ""%string, r; exact E|discriminate]|]. intros (a & b & E). left. destruct a; [exists b; exact E|discriminate].
  - rewrite IH. split.
    + intros [(r & E)|(a & b & E)]; [exists ""%string, r; exact E|exists (String c a), b; cbn; now rewrite E].
    + intros (a & b & E). destruct a as [|x a]; [left; exists b; exact E|right]. cbn in E. injection E as _ E. eauto.
Qed.
Lemma equals_my v s : has_char BS s = false -> equals mysql_literal v (quote s) = String.eqb v s.
Proof. intros H. unfold equals. replace (quote s) with (quote s ++ "")%string by apply append_nil. rewrite mysql_quote_plain; [reflexivity|exact H|apply not_begins_nil]. Qed.
Lemma equals_std v s : equals sql_literal v (quote s) = String.eqb v s.
Proof. exact (is_literal_quote v s). Qed.
Lemma one_line_kept desc : one_line desc -> PgExplore.or_none (Some (default ""%string (want_comment DMySQL desc))) = desc.
Proof.
  intros H. unfold want_comment. destruct desc as [s|]; [|reflexivity]. destruct (H s eq_refl) as [N E]. rewrite E. destruct s; [congruence|reflexivity].
Qed.

(** ** MySQL *)
Section MySQL.
  Context (deparse : sqltype -> string -> string) (I : infoschema) (order : forall A : Type, string -> list A -> list A) (current : string).
  Hypothesis K : keys_ok I.
  Hypothesis AO : any_order order.
  Hypothesis KO : keys_in_order I order.
  Notation home := (fun k : okey => (current, snd k)).
  Context (t : table).
  Notation q := (t_name t).
  Notation p := (home (key_of q)).
  Hypothesis SC : scope_id q = None.
  Hypothesis W : tab_wf DMySQL t.
  Hypothesis S : my_tab_seen deparse DMySQL t.
  Hypothesis T : table_rows I (my_col_row deparse) (my_foreign_row I home) p (want_tab DMySQL t).

  Lemma my_where a b : where_table mysql_literal current q a b = (String.eqb a (fst p) && String.eqb b (snd p))%bool.
  Proof. unfold where_table. rewrite SC, equals_my by apply (mt_name _ _ _ S). reflexivity. Qed.
  Lemma my_read r c : In c (t_columns t) -> ic_name r = c_name c -> my_col_row deparse r (want_col DMySQL c) -> my_column r = Ok c.
  Proof.
    intros Ic En ([Nu De] & (s & x & Ts & Rp & E1 & E2 & E3 & E4 & E5 & E6) & Au & Cm). pose proof (mt_cols _ _ _ S c Ic) as CS. unfold my_column. rewrite E1, E2, E3, E4, E5, E6.
    pose proof (C30_mysql _ (mc_type _ _ _ CS)) as F. unfold found_mysql in F. cbn [want_col dc_type] in Ts. rewrite Ts, Rp in F. injection F as ->. cbn [bind].
    assert (X1 : nullable r = c_nullable c) by (unfold nullable; rewrite Nu; cbn; destruct (c_nullable c); reflexivity).
    assert (X2 : ic_default r = c_default c). { rewrite De. cbn [want_col dc_default dc_type]. unfold want_default. destruct (c_default c) as [e|] eqn:Q; [|reflexivity]. cbn. f_equal. exact (mc_default _ _ _ CS e Q). }
    assert (X3 : contains "auto_increment" (ic_extra r) = c_identity c). { apply eq_true_iff_eq. rewrite contains_spec. exact Au. }
    rewrite X1, X2, X3, En, Cm. cbn [want_col dc_comment]. rewrite (one_line_kept _ (mc_desc _ _ _ CS)). now destruct c.
  Qed.
  Lemma my_cons k : In k (t_constraints t) -> match k with CUnique _ cs => cs <> [] | CForeign _ cs _ rc => cs <> [] /\ List.length cs = List.length rc | _ => False end.
  Proof. intros Ik. pose proof (mt_cons _ _ _ S k Ik) as H. destruct k; cbn in H; tauto. Qed.
  Definition my_row (n : string) (r : iuse) : Factory.frow :=
    let '(_, t, c) := match ku_ref r with Some x => x | None => (""%string, ""%string, ""%string) end in
    Factory.FRow n (ku_col r) (let '(a, i) := split_composite_id t in Prefixed a i) c.
  Lemma my_foreign_name r : Factory.f_name (my_row (ku_name r) r) = ku_name r.
  Proof. unfold my_row. now destruct (match ku_ref r with Some x => x | None => _ end) as [[? ?] ?]. Qed.
  Lemma my_foreign_named n x : In x (is_refs I) -> (rf_schema x, rf_name x, rf_table x) = (fst p, n, snd p) ->
    List.filter (fun r => String.eqb (Factory.f_name (snd r)) n) (q_my_foreign I mysql_literal current q) = map (fun r => (ku_pos r, my_row n r)) (List.filter (use_of p n) (is_usage I)).
  Proof.
    intros Ix Ex. injection Ex as X1 X2 X3. unfold q_my_foreign. rewrite filter_flat_map. rewrite (flat_map_one _ _ _ (keyed_nodup _ _ (ko_ref _ K)) Ix).
    - rewrite filter_flat_map, <- flat_map_if. apply flat_map_in. intros r Ir. rewrite my_where, equals_my by apply (mt_name _ _ _ S). rewrite X1, X2, X3. cbn [fst snd]. rewrite String.eqb_refl. unfold use_of. cbn [fst snd].
      destruct (String.eqb_spec (ku_schema r) current); [|reflexivity]. destruct (String.eqb_spec (ku_name r) n) as [En|]; [|reflexivity]. cbn [andb].
      change (snd (key_of q)) with (local_id q). destruct (String.eqb (ku_tschema r) current && String.eqb (ku_table r) (local_id q))%bool; [|reflexivity]. fold (my_row (ku_name r) r). cbn [List.filter snd]. rewrite my_foreign_name, En, String.eqb_refl. reflexivity.
    - intros y Iy D. rewrite filter_flat_map. apply flat_map_nil. intros r Ir.
      destruct (String.eqb (ku_schema r) (rf_schema y) && String.eqb (ku_name r) (rf_name y))%bool eqn:E; [|reflexivity]. rewrite my_where.
      match goal with |- context [if ?b then [_] else _] => destruct b eqn:E2 end; [|reflexivity]. fold (my_row (ku_name r) r). cbn [List.filter snd]. rewrite my_foreign_name. destruct (String.eqb_spec (ku_name r) n) as [En|]; [|reflexivity]. exfalso. apply D.
      rewrite !andb_true_iff in E. rewrite !andb_true_iff in E2. destruct E as [E1 E3], E2 as [_ [E4 _]]. apply String.eqb_eq in E1, E3, E4. apply (keyed_eq _ _ _ _ (ko_ref _ K) Iy Ix).
      pose proof (ko_use_schema _ K r Ir) as Sc. cbn in *. congruence.
  Qed.
  Lemma my_foreign_in f : In f (my_foreign_rows I order mysql_literal current q) -> In (Factory.f_name f) (map Factory.k_name (foreigns (t_constraints t))).
  Proof.
    unfold my_foreign_rows. intros H. apply in_map_iff in H as (r & <- & H). apply (Permutation_in _ (AO _ ("foreign " ++ local_id q)%string _)) in H.
    unfold q_my_foreign in H. apply in_flat_map in H as (x & Ix & H). apply in_flat_map in H as (u & Iu & H).
    destruct (String.eqb (ku_schema u) (rf_schema x) && String.eqb (ku_name u) (rf_name x))%bool eqn:E; [|destruct H]. rewrite my_where in H.
    match type of H with In _ (if ?b then _ else _) => destruct b eqn:E2 end; [|destruct H]. destruct H as [<-|[]]. fold (my_row (ku_name u) u). cbn [snd]. rewrite my_foreign_name.
    rewrite !andb_true_iff in E. rewrite !andb_true_iff in E2. destruct E as [E1 E3], E2 as [_ [E4 E5]]. apply String.eqb_eq in E1, E3, E4, E5.
    destruct (tr_foreign_only _ _ _ _ _ T x u Ix Iu) as (m & cs & rt & rc & H & _); [congruence|cbn in *; congruence|]. cbn in H. apply want_cons_some in H as [H Em]. cbn in Em. rewrite E3, <- Em.
    apply (in_map Factory.k_name) with (x := Factory.FKey m cs rt rc). now apply foreigns_in.
  Qed.
  Lemma sorted_rows m l : StronglySorted (fun a b => (ku_pos a <= ku_pos b)%Z) l -> StronglySorted (fun a b => (fst a <= fst b)%Z) (map (fun r => (ku_pos r, my_row m r)) l).
  Proof. induction 1 as [|u l SO IH F]; cbn [map]; constructor; [exact IH|]. apply List.Forall_map. eapply List.Forall_impl; [|exact F]. intros v Hv. exact Hv. Qed.
  Lemma my_foreign_found : PropsFactory.tells_keys (my_foreign_rows I order mysql_literal current q) (foreigns (t_constraints t)).
  Proof.
    split; [apply foreigns_keys, nodup_list, (tw_cons _ _ W)|]. split; [|exact my_foreign_in].
    intros k Ik. apply foreigns_in in Ik. destruct k as [m cs rt rc]. unfold PropsFactory.key_constr in Ik. cbn [Factory.k_name Factory.k_source Factory.k_target Factory.k_table] in *.
    destruct (mt_cons _ _ _ S _ Ik) as (NE & Ln & (a & i & -> & Sp)). split; [exact NE|]. split; [exact Ln|].
    assert (Fr : my_foreign_row I home p m cs (Prefixed a i) rc) by (apply (tr_foreign _ _ _ _ _ T m m); exact (own_con DMySQL t W my_cons _ Ik)).
    destruct Fr as ((x & Ix & Ex) & U). unfold my_foreign_rows. rewrite PgProofs3.filter_map.
    assert (SS : StronglySorted (fun a b => (fst a <= fst b)%Z) (List.filter (fun r => String.eqb (Factory.f_name (snd r)) m) (order _ ("foreign " ++ local_id q)%string (q_my_foreign I mysql_literal current q)))).
    { rewrite (proj2 KO), (my_foreign_named m x Ix Ex). apply sorted_rows, (proj1 KO (fst p) (snd p) m). }
    destruct (sorted_uses I p (my_row m) _ m _ SS (Permutation_trans (perm_filter _ _ _ (AO _ ("foreign " ++ local_id q)%string _)) (Permutation_refl' (my_foreign_named m x Ix Ex))) U) as (l & E1 & E2 & _).
    etransitivity; [exact E2|]. clear -E1 Sp. revert E1. generalize (combine cs rc). intros pr. revert l. induction pr as [|[x y] pr IH]; intros [|r l] E; cbn in E; try discriminate; [reflexivity|].
    injection E as E1 E2 E3. cbn [map]. f_equal; [|apply IH; exact E3]. unfold my_row. rewrite E2, E1. cbn [fst snd]. cbn [local_id] in Sp. now rewrite Sp.
  Qed.
  Lemma my_table_found r : table_at I p r -> it_comment r = default ""%string (dt_comment (want_tab DMySQL t)) ->
    exists t', my_table I order mysql_literal current q = Ok t' /\ t_name t' = q /\ table_keyed t' /\ table_eqb t' t = true.
  Proof.
    intros Tr Cm. unfold my_table. apply (assemble I order mysql_literal current K AO p q my_where DMySQL t _ _ W T my_cons _ _ _ r); [apply (mt_enum _ _ _ S)|reflexivity|exact Tr| |exact my_foreign_found|].
    - apply (columns_found I order mysql_literal current K AO p q my_where DMySQL t _ _ W T). intros r' c _ Ic En CR. exact (my_read r' c Ic En CR).
    - unfold my_description. rewrite (proj1 (table_rows_found I mysql_literal current K p q my_where r Tr)).
      assert (D : order itab ("description " ++ local_id q)%string [r] = [r]) by (apply Permutation_length_1_inv; symmetry; apply AO). rewrite D. rewrite Cm. cbn [want_tab dt_comment]. now rewrite (one_line_kept _ (mt_desc _ _ _ S)).
  Qed.
End MySQL.

(** ** SQL Server *)
Lemma filter_ext_uses {A} (f g : A -> bool) l : (forall x, In x l -> f x = g x) -> List.filter f l = List.filter g l.
Proof. induction l as [|x l IH]; intros H; [reflexivity|]. cbn. rewrite (H x (or_introl eq_refl)), IH; [reflexivity|]. intros y Iy. apply H. now right. Qed.
Lemma perm_flat_map {A B} (f : A -> list B) l m : Permutation l m -> Permutation (flat_map f l) (flat_map f m).
Proof.
  induction 1 as [|x l m H IH|x y l|l m k H1 IH1 H2 IH2]; cbn; [constructor|now apply Permutation_app_head| |etransitivity; eauto].
  rewrite !app_assoc. apply Permutation_app_tail, Permutation_app_comm.
Qed.
Lemma flat_map_filter {A B} (c : A -> bool) (f : A -> list B) l : flat_map f (List.filter c l) = flat_map (fun x => if c x then f x else []) l.
Proof. induction l as [|x l IH]; [reflexivity|]. cbn. destruct (c x); cbn; now rewrite IH. Qed.
(** two lists of rows, each numbered from the same number, joined by the numbers *)
Lemma join_numbers {B} (g : iuse -> iuse -> B) l1 : forall k l2, map ku_pos l1 = map Z.of_nat (seq k (List.length l1)) -> map ku_pos l2 = map Z.of_nat (seq k (List.length l2)) -> List.length l1 = List.length l2 ->
  flat_map (fun u => flat_map (fun v => if Z.eqb (ku_pos u) (ku_pos v) then [g u v] else []) l2) l1 = map (fun x => g (fst x) (snd x)) (combine l1 l2).
Proof.
  induction l1 as [|u l1 IH]; intros k [|v l2] E1 E2 L; cbn in L; try discriminate; [reflexivity|]. cbn in E1, E2. injection E1 as U1 E1. injection E2 as V1 E2. injection L as L.
  cbn [flat_map combine map fst snd]. rewrite U1, V1, Z.eqb_refl. rewrite (flat_map_nil _ l2).
  - cbn [app]. f_equal. rewrite <- (IH (Datatypes.S k) l2 E1 E2 L). apply flat_map_in. intros u' Iu. destruct (Z.eqb_spec (ku_pos u') (Z.of_nat k)) as [E|]; [exfalso|reflexivity].
    apply (in_map ku_pos) in Iu. rewrite E1 in Iu. apply in_map_iff in Iu as (j & Ej & Ij). apply in_seq in Ij. lia.
  - intros v' Iv. destruct (Z.eqb_spec (Z.of_nat k) (ku_pos v')) as [E|]; [exfalso|reflexivity].
    apply (in_map ku_pos) in Iv. rewrite E2 in Iv. apply in_map_iff in Iv as (j & Ej & Ij). apply in_seq in Ij. lia.
Qed.

Section MSSQL.
  Context (deparse : sqltype -> string -> string) (I : infoschema) (order : forall A : Type, string -> list A -> list A) (current : string).
  Hypothesis K : keys_ok I.
  Hypothesis NA : names_apart I.
  Hypothesis AO : any_order order.
  Notation home := (fun k : okey => k).
  Context (t : table) (s n : string).
  Notation q := (t_name t).
  Hypothesis Nm : q = Qualified (Some s) n.
  Notation p := (s, n).
  Hypothesis NS : s <> ""%string.
  Hypothesis W : tab_wf DMSSQL t.
  Hypothesis S : ms_tab_seen deparse t.
  Hypothesis T : table_rows I (ms_col_row deparse I) (ms_foreign_row I home) p (want_tab DMSSQL t).

  Lemma ms_where a b : where_table sql_literal current q a b = (String.eqb a (fst p) && String.eqb b (snd p))%bool.
  Proof. unfold where_table. rewrite Nm. cbn [scope_id local_id]. now rewrite !equals_std. Qed.
  Lemma ms_sys x : In x (q_sys I sql_literal q) <-> In x (sys_columns I) /\ (sc_schema x, sc_table x) = (s, n).
  Proof.
    unfold q_sys. rewrite Nm. assert (E : or_dbo (Qualified (Some s) n) = s) by (unfold or_dbo; cbn; destruct s; [congruence|reflexivity]). rewrite E. cbn [local_id]. rewrite in_flat_map. split.
    - intros (y & Iy & H). rewrite !equals_std in H. destruct (_ && _)%bool eqn:Q in H; [|destruct H]. destruct H as [<-|[]]. apply andb_true_iff in Q as [Q1 Q2]. apply String.eqb_eq in Q1, Q2. split; [exact Iy|congruence].
    - intros [Iy Ex]. injection Ex as E1 E2. exists x. split; [exact Iy|]. rewrite !equals_std, E1, E2, !String.eqb_refl. now left.
  Qed.
  Lemma ms_sys_one x y : In x (q_sys I sql_literal q) -> In y (q_sys I sql_literal q) -> sc_name x = sc_name y -> x = y.
  Proof. intros Ix Iy E. apply ms_sys in Ix as [Ix Ex], Iy as [Iy Ey]. apply (keyed_eq _ _ _ _ (ko_scol _ K) Ix Iy). congruence. Qed.
  Lemma ms_identity x : In x (q_sys I sql_literal q) -> str_in (sc_name x) (identity_columns I order sql_literal q) = sc_identity x.
  Proof.
    intros Ix. apply eq_true_iff_eq. unfold str_in. rewrite existsb_exists. split.
    - intros (m & Im & E). apply String.eqb_eq in E. subst m. unfold identity_columns in Im. apply (Permutation_in _ (AO _ ("identity " ++ local_id q)%string _)) in Im. apply in_flat_map in Im as (y & Iy & H). destruct (sc_identity y) eqn:Z; [|destruct H]. destruct H as [H|[]]. now rewrite <- (ms_sys_one y x Iy Ix H).
    - intros E. exists (sc_name x). split; [|apply String.eqb_refl]. unfold identity_columns. apply (Permutation_in _ (Permutation_sym (AO _ ("identity " ++ local_id q)%string _))). apply in_flat_map. exists x. split; [exact Ix|]. rewrite E. now left.
  Qed.
  Lemma find_some_in {A} m (l : list (string * A)) e : Factory.find_entry m l = Some e -> In (m, e) l.
  Proof. induction l as [|[k a] l IH]; cbn; [discriminate|]. destruct (String.eqb_spec k m) as [->|]; [intros [= ->]; now left|intros H; right; auto]. Qed.
  Lemma find_none_in {A} m (l : list (string * A)) e : Factory.find_entry m l = None -> ~ In (m, e) l.
  Proof. induction l as [|[k a] l IH]; cbn; [tauto|]. destruct (String.eqb_spec k m) as [->|N]; [discriminate|]. intros H [[= E _]|J]; [congruence|exact (IH H J)]. Qed.
  Lemma ms_defaults m e : In (m, e) (default_columns I order sql_literal q) <-> exists x, In x (q_sys I sql_literal q) /\ sc_name x = m /\ sc_default x = Some e.
  Proof.
    unfold default_columns. split.
    - intros H. apply (Permutation_in _ (AO _ ("defaults " ++ local_id q)%string _)) in H. apply in_flat_map in H as (x & Ix & H). exists x. destruct (sc_default x); [|destruct H]. destruct H as [[= <- <-]|[]]. auto.
    - intros (x & Ix & E1 & E2). apply (Permutation_in _ (Permutation_sym (AO _ ("defaults " ++ local_id q)%string _))). apply in_flat_map. exists x. rewrite E2, E1. split; [exact Ix|now left].
  Qed.
  Lemma ms_default x : In x (q_sys I sql_literal q) -> default_value (default_columns I order sql_literal q) (sc_name x) = sc_default x.
  Proof.
    intros Ix. unfold default_value. destruct (Factory.find_entry _ _) as [e|] eqn:F.
    - apply find_some_in, in_rev, ms_defaults in F as (y & Iy & E & D). now rewrite <- (ms_sys_one y x Iy Ix E).
    - destruct (sc_default x) as [e|] eqn:D; [|reflexivity]. exfalso. apply (find_none_in _ _ e F). apply -> in_rev. apply ms_defaults. eauto.
  Qed.
  Lemma ms_read r c : column_at I p r -> In c (t_columns t) -> ic_name r = c_name c -> ms_col_row deparse I r (want_col DMSSQL c) -> (do k <- ms_column r; Ok (ms_complete I order sql_literal q k)) = Ok c.
  Proof.
    intros [_ A] Ic En ([Nu De] & (z & x & Ts & Rp & E1 & E3 & E4 & E5 & E6) & (y & Iy & Ey & Yi & Yd)). pose proof (st_cols _ _ S c Ic) as CS. unfold ms_column. rewrite E1, E3, E4, E5, E6.
    pose proof (C30_mssql _ (sn_type _ _ CS)) as F. unfold found_mssql in F. cbn [want_col dc_type] in Ts. rewrite Ts, Rp in F. injection F as ->. cbn [bind]. unfold ms_complete. cbn [c_name c_type c_nullable c_default c_identity c_desc].
    assert (X1 : nullable r = c_nullable c) by (unfold nullable; rewrite Nu; cbn; destruct (c_nullable c); reflexivity).
    assert (X2 : ic_default r = c_default c). { rewrite De. cbn [want_col dc_default dc_type]. unfold want_default. destruct (c_default c) as [e|] eqn:Q; [|reflexivity]. cbn. f_equal. exact (sn_default _ _ CS e Q). }
    injection Ey as Y1 Y2 Y3. assert (Is : In y (q_sys I sql_literal q)) by (apply ms_sys; split; [exact Iy|congruence]).
    rewrite <- Y3, (ms_identity y Is), (ms_default y Is), Yi, Yd, X1, X2, Y3, En. cbn [want_col dc_ident orb].
    pose proof (sn_desc _ _ CS) as Dn. destruct c as [c1 c2 c3 c4 c5 c6]. cbn in *. subst c6. now destruct c4.
  Qed.
  Lemma ms_columns_found : exists cs, ms_columns I order sql_literal current q = Ok cs /\ Permutation cs (t_columns t).
  Proof.
    destruct (columns_found I order sql_literal current K AO p q ms_where DMSSQL t _ _ W T (fun r => do k <- ms_column r; Ok (ms_complete I order sql_literal q k)) ms_read) as (cs & E & Pm). exists cs. split; [|exact Pm].
    unfold ms_columns. revert cs E Pm. generalize (column_rows I order sql_literal current q). intros l cs E _. revert cs E. induction l as [|r l IH]; intros cs E; cbn in *; [congruence|]. destruct (ms_column r) as [k|]; [|discriminate]. cbn in *.
    destruct (map_res (fun r => do k <- ms_column r; Ok (ms_complete I order sql_literal q k)) l) as [ks|]; [|discriminate]. cbn in E. injection E as <-. specialize (IH ks eq_refl). destruct (map_res ms_column l); [|discriminate]. cbn in *. now injection IH as <-.
  Qed.
  Lemma ms_cons k : In k (t_constraints t) -> match k with CUnique _ cs => cs <> [] | CForeign _ cs _ rc => cs <> [] /\ List.length cs = List.length rc | _ => False end.
  Proof. intros Ik. pose proof (st_cons _ _ S k Ik) as H. destruct k; cbn in H; tauto. Qed.

  Definition ms_row (m : string) (u v : iuse) : Z * Factory.frow :=
    (ku_pos u, Factory.FRow m (ku_col u) (Qualified (Some (ku_tschema v)) (ku_table v)) (ku_col v)).
  Lemma ms_foreign_named m x h : In x (is_refs I) -> (rf_schema x, rf_name x) = (s, m) -> rf_uschema x = fst h -> List.filter (use_of h (rf_uname x)) (is_usage I) <> [] ->
    List.filter (fun r => String.eqb (Factory.f_name (snd r)) m) (q_foreign I sql_literal current q) =
    flat_map (fun u => flat_map (fun v => if Z.eqb (ku_pos u) (ku_pos v) then [ms_row m u v] else []) (List.filter (use_of h (rf_uname x)) (is_usage I))) (List.filter (use_of p m) (is_usage I)).
  Proof.
    intros Ix Ex Eu NE. injection Ex as X1 X2. unfold q_foreign. rewrite filter_flat_map. rewrite (flat_map_one _ _ _ (keyed_nodup _ _ (ko_ref _ K)) Ix).
    - rewrite filter_flat_map.
      assert (U2 : forall v, In v (is_usage I) -> (String.eqb (ku_schema v) (rf_uschema x) && String.eqb (ku_name v) (rf_uname x))%bool = use_of h (rf_uname x) v).
      { intros v Iv. unfold use_of. rewrite Eu. destruct (String.eqb_spec (ku_schema v) (fst h)) as [E1|]; [|reflexivity]. destruct (String.eqb_spec (ku_name v) (rf_uname x)) as [E2|]; [|reflexivity]. cbn [andb].
        destruct (List.filter (use_of h (rf_uname x)) (is_usage I)) as [|w ws] eqn:Q; [congruence|]. assert (Iw : In w (List.filter (use_of h (rf_uname x)) (is_usage I))) by (rewrite Q; now left). apply filter_In in Iw as [Iw Uw]. unfold use_of in Uw. rewrite !andb_true_iff in Uw. destruct Uw as [[[W1 W2] W3] W4]. apply String.eqb_eq in W1, W2, W3, W4.
        assert (Z : (ku_tschema v, ku_table v) = (ku_tschema w, ku_table w)) by (apply NA; auto; congruence). injection Z as Z1 Z2. rewrite Z1, Z2, W3, W4, !String.eqb_refl. reflexivity. }
      rewrite flat_map_filter. apply flat_map_in. intros u Iu. rewrite ms_where, X1, X2. unfold use_of at 1. cbn [fst snd].
      destruct (String.eqb_spec (ku_schema u) s); [|reflexivity]. destruct (String.eqb_spec (ku_name u) m) as [En|]; [|reflexivity]. cbn [andb].
      rewrite flat_map_filter, filter_flat_map. destruct (String.eqb (ku_tschema u) s && String.eqb (ku_table u) n)%bool.
      + apply flat_map_in. intros v Iv. rewrite (U2 v Iv). destruct (use_of h (rf_uname x) v); [|reflexivity]. cbn [andb]. destruct (Z.eqb (ku_pos u) (ku_pos v)); [|reflexivity]. cbn [List.filter snd Factory.f_name]. unfold ms_row. now rewrite En, String.eqb_refl.
      + apply flat_map_nil. intros v Iv. now destruct (String.eqb (ku_schema v) (rf_uschema x) && String.eqb (ku_name v) (rf_uname x))%bool.
    - intros y Iy D. rewrite filter_flat_map. apply flat_map_nil. intros u Iu.
      destruct (String.eqb (ku_schema u) (rf_schema y) && String.eqb (ku_name u) (rf_name y))%bool eqn:E; [|reflexivity]. rewrite filter_flat_map. apply flat_map_nil. intros v Iv.
      match goal with |- context [if ?b then _ else _] => destruct b end; [|reflexivity]. rewrite ms_where. match goal with |- context [if ?b then _ else _] => destruct b eqn:E2 end; [|reflexivity]. cbn [List.filter snd Factory.f_name]. destruct (String.eqb_spec (ku_name u) m) as [En|]; [|reflexivity]. exfalso. apply D.
      rewrite !andb_true_iff in E. rewrite !andb_true_iff in E2. destruct E as [E1 E3], E2 as [[E4 _] _]. apply String.eqb_eq in E1, E3, E4. apply (keyed_eq _ _ _ _ (ko_ref _ K) Iy Ix).
      pose proof (ko_use_schema _ K u Iu) as Sc. cbn in *. congruence.
  Qed.
  Lemma ms_foreign_in f : In f (foreign_rows I order sql_literal current q) -> In (Factory.f_name f) (map Factory.k_name (foreigns (t_constraints t))).
  Proof.
    unfold foreign_rows. intros H. apply in_map_iff in H as (r & <- & H). apply (Permutation_in _ (Permutation_sym (sort_perm' _ _))) in H. apply (Permutation_in _ (AO _ ("foreign " ++ local_id q)%string _)) in H.
    unfold q_foreign in H. apply in_flat_map in H as (x & Ix & H). apply in_flat_map in H as (u & Iu & H).
    destruct (String.eqb (ku_schema u) (rf_schema x) && String.eqb (ku_name u) (rf_name x))%bool eqn:E; [|destruct H]. apply in_flat_map in H as (v & Iv & H).
    match type of H with In _ (if ?b then _ else _) => destruct b end; [|destruct H]. rewrite ms_where in H.
    match type of H with In _ (if ?b then _ else _) => destruct b eqn:E2 end; [|destruct H]. destruct H as [<-|[]]. cbn [snd Factory.f_name].
    rewrite !andb_true_iff in E. rewrite !andb_true_iff in E2. destruct E as [E1 E3], E2 as [[E4 E5] _]. apply String.eqb_eq in E1, E3, E4, E5.
    destruct (tr_foreign_only _ _ _ _ _ T x u Ix Iu) as (m & cs & rt & rc & H & _); [congruence|cbn in *; congruence|]. cbn in H. apply want_cons_some in H as [H Em]. cbn in Em. rewrite E3, <- Em.
    apply (in_map Factory.k_name) with (x := Factory.FKey m cs rt rc). now apply foreigns_in.
  Qed.
  Lemma ms_foreign_found : PropsFactory.tells_keys (foreign_rows I order sql_literal current q) (foreigns (t_constraints t)).
  Proof.
    split; [apply foreigns_keys, nodup_list, (tw_cons _ _ W)|]. split; [|exact ms_foreign_in].
    intros k Ik. apply foreigns_in in Ik. destruct k as [m cs rt rc]. unfold PropsFactory.key_constr in Ik. cbn [Factory.k_name Factory.k_source Factory.k_target Factory.k_table] in *.
    destruct (st_cons _ _ S _ Ik) as (NE & Ln & (s' & n' & ->)). split; [exact NE|]. split; [exact Ln|].
    assert (Fr : ms_foreign_row I home p m cs (Qualified (Some s') n') rc) by (apply (tr_foreign _ _ _ _ _ T m m); exact (own_con DMSSQL t W ms_cons _ Ik)).
    destruct Fr as (x & Ix & Ex & Eu & (l1 & P1 & N1 & C1) & (l2 & P2 & N2 & C2)). cbn in Eu. change (Permutation l1 (List.filter (use_of p m) (is_usage I))) in P1. change (Permutation l2 (List.filter (use_of (s', n') (rf_uname x)) (is_usage I))) in P2.
    assert (L1 : map ku_col l1 = cs). { apply (f_equal (map fst)) in C1. rewrite map_map in C1. etransitivity; [exact C1|]. unfold plain_cols. rewrite map_map. apply map_id. }
    assert (L2 : map ku_col l2 = rc). { apply (f_equal (map fst)) in C2. rewrite map_map in C2. etransitivity; [exact C2|]. unfold plain_cols. rewrite map_map. apply map_id. }
    assert (LL : List.length l1 = List.length l2) by (rewrite <- (map_length ku_col l1), <- (map_length ku_col l2), L1, L2; exact Ln).
    unfold foreign_rows. rewrite PgProofs3.filter_map. set (rows := List.filter _ _).
    assert (Pr : Permutation rows (map (fun x => ms_row m (fst x) (snd x)) (combine l1 l2))).
    { unfold rows. etransitivity; [apply perm_filter; etransitivity; [symmetry; apply sort_perm'|apply AO]|]. rewrite (ms_foreign_named m x (s', n') Ix Ex Eu).
      - etransitivity; [apply perm_flat_map; symmetry; exact P1|]. rewrite <- (join_numbers (ms_row m) l1 1 l2 N1 N2 LL). clear -P2. induction l1 as [|u l1 IH]; [reflexivity|]. cbn [flat_map]. apply Permutation_app; [apply perm_flat_map; symmetry; exact P2|exact IH].
      - intros Z. rewrite Z in P2. symmetry in P2. apply Permutation_nil in P2. subst l2. destruct l1; [|discriminate LL]. cbn in L1. congruence. }
    assert (E : rows = map (fun x => ms_row m (fst x) (snd x)) (combine l1 l2)).
    { apply (sorted_unique fst); [exact Pr|apply sorted_filter, sorted_pos|]. apply (seq_sorted fst _ 1). rewrite map_map. cbn [ms_row fst]. rewrite map_length, combine_length, <- LL, Nat.min_id. rewrite <- N1. clear -LL. revert l2 LL. induction l1 as [|u l1 IH]; intros [|v l2] LL; try discriminate; [reflexivity|]. cbn. f_equal. apply IH. now injection LL. }
    rewrite E, map_map. rewrite <- L1, <- L2.
    assert (U : forall v, In v l2 -> ku_tschema v = s' /\ ku_table v = n'). { intros v Iv. apply (Permutation_in _ P2), filter_In in Iv as [_ Uv]. unfold use_of in Uv. rewrite !andb_true_iff in Uv. destruct Uv as [[_ W3] W4]. apply String.eqb_eq in W3, W4. auto. }
    clear -U. revert l2 U. induction l1 as [|u l1 IH]; intros [|v l2] U; try reflexivity. cbn. destruct (U v (or_introl eq_refl)) as [-> ->]. f_equal. apply IH. intros w Iw. apply U. now right.
  Qed.
  Lemma ms_table_found r : table_at I p r ->
    exists t', ms_table I order sql_literal current q = Ok t' /\ t_name t' = q /\ table_keyed t' /\ table_eqb t' t = true.
  Proof.
    intros Tr. unfold ms_table. apply (assemble I order sql_literal current K AO p q ms_where DMSSQL t _ _ W T ms_cons _ _ _ r); [apply (st_enum _ _ S)|reflexivity|exact Tr|exact ms_columns_found|exact ms_foreign_found|]. now rewrite (st_desc _ _ S).
  Qed.
End MSSQL.
