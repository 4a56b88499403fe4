(** C57 (MySQL, SQL Server): discovery reads back what was created. *)
From Verif Require Import PyStr QuoteModel QuoteSpec ObjectDict Types Objects SqlAst Ddl Mutate DbSpec CatSpec MutSpec RefSpec KeySpec ExCat IsExplore IsCatSpec IsSeenSpec PropsDiscover Flat FlatSpec PropsFlat Session SessionSpec SessionProofs.
From Verif Require ObjectDictProofs TextProofs1 DiscoverSpec PropsSession CatProofs5 CatProofs4 TabProofs1 CatProofs3 NsProofs4 NsProofs5 Factory Discover.
From Verif Require Import PgProofs1 PgProofs3 IsProofs1 IsProofs2 IsProofs3 HushSpec HushProofs HushSync ExInfo.
From Coq Require Import List String Sorted Permutation Lia.
From stdpp Require Import gmap strings.
Open Scope string_scope.
Open Scope list_scope.

(** ** MySQL: all tables are in the current database; their names start with that of their namespace *)
Notation my_home current := (fun k : okey => (current, snd k)).
(** A table that is in the database as declared is read back equal to the declaration. *)
Theorem C57_mysql_table : forall deparse I order current D t,
  any_order order -> keys_in_order I order -> keys_ok I -> my_tells deparse I (my_home current) (fun s => s = "") D ->
  scope_id (t_name t) = None -> tab_wf DMySQL t -> my_tab_seen deparse DMySQL t ->
  db_objs D !! key_of (t_name t) = Some (OTable (want_tab DMySQL t)) ->
  exists t', my_table I order mysql_literal current (t_name t) = Ok t' /\ table_keyed t' /\ table_eqb t' t = true.
Proof.
  intros deparse I order current D t AO KO K TO Sc W S H. destruct (mt_objs _ _ _ _ _ TO (key_of (t_name t)) (OTable (want_tab DMySQL t))) as (tb & r & E & Ta & Cm & T); [cbn; now rewrite Sc|exact H|]. injection E as <-.
  destruct (my_table_found deparse I order current K AO KO t Sc W S T r Ta Cm) as (t' & G & _ & Ky & Q). eauto.
Qed.
Print Assumptions C57_mysql_table.

(** Discovery of several modules gives a catalog that equals the one that was created.  The database holds the tables
    [created], each under a namespace or under none, with names free of doubt (C33); those of the modules are the tables
    of the catalog.  There may be others. *)
Theorem C57_mysql_discover : forall deparse order current view listed D mods tabs created,
  any_order order -> keys_in_order (view D) order -> cat_wf DMySQL [Ns "" [] [] tabs] -> (forall x, In x tabs -> my_tab_seen deparse DMySQL x) ->
  has_cat DMySQL [Ns "" [] [] tabs] D ->
  (forall k, is_Some (db_objs D !! ("", k)) <-> In k (table_names created)) -> (forall q, In q created -> clear_id q) ->
  (forall m n, In m mods -> scope_of m = Some n -> clean n) ->
  (forall ns i, (In (ns, i) created /\ exists m, In m mods /\ scope_of m = ns) <-> exists x, In x tabs /\ t_name x = Prefixed ns i) ->
  (forall x, In x tabs -> exists ns i, t_name x = Prefixed ns i) -> List.NoDup mods -> mods <> [] ->
  my_reports deparse current view listed D mods ->
  exists c, discover (my_explorer order current view listed) D mods = (c, true) /\ cat_keyed c /\ cat_eqb c [Ns "" [] [] tabs] = true.
Proof.
  intros deparse order current view listed D mods tabs created AO KO W S Has All Clear CM Mine Shape NM SM V.
  exact (my_catalog_found deparse order current view listed AO tabs D mods created W S Has All Clear CM Mine Shape NM SM V KO).
Qed.
Print Assumptions C57_mysql_discover.

(** Synchronize, then synchronize again with the same classes: the second call executes nothing. *)
Theorem C57_mysql_synchronize_twice : forall deparse order current view listed o mods tabs w w' l s F,
  let t := [Ns "" [] [] tabs] in let X := my_explorer order current view listed in
  any_order order -> keys_in_order (view (w_db w')) order -> CatProofs5.drops_all o ->
  cat_wf DMySQL t -> cat_wf DMySQL s -> step_ok DMySQL s t -> apart s F -> apart t F ->
  (forall x, In x tabs -> my_tab_seen deparse DMySQL x) ->
  (forall x c text, In x tabs -> In c (t_columns x) -> c_desc c = Some text -> String.length text <= 1024) ->
  (forall x, In x tabs -> exists m i, In m mods /\ t_name x = Prefixed (scope_of m) i /\ clear_id (scope_of m, i)) ->
  (forall m n, In m mods -> scope_of m = Some n -> clean n) -> List.NoDup mods -> mods <> [] ->
  w_db w = plus_cat DMySQL s F -> discover X (w_db w) mods = (s, true) ->
  synchronize DMySQL o (engine_of DMySQL) X None mods (Ok t) w = (w', true, l) ->
  my_reports deparse current view listed (w_db w') mods ->
  exists st, synchronize DMySQL o (engine_of DMySQL) X None mods (Ok t) w' = (World st (w_db w'), true, []).
Proof.
  intros deparse order current view listed o mods tabs w w' l s F t X AO KO Ho Wt Ws [C HP] As At S Ln Sh CM NM SM Ew Hd H V.
  destruct (synchronize_reaches DMySQL o X mods t w w' l s F Ho Wt Ws C HP As At Ew Hd H) as [E _].
  assert (Has : has_cat DMySQL t (w_db w')) by (rewrite E; now apply plus_has).
  apply synchronize_again_at; [exact Wt| | |].
  - set (part := fun q => match q with Prefixed ns i => (ns, i) | _ => (None, "") end).
    assert (Pa : forall x, In x tabs -> t_name x = Prefixed (fst (part (t_name x))) (snd (part (t_name x))) /\ clear_id (part (t_name x)) /\ exists m, In m mods /\ scope_of m = fst (part (t_name x))).
    { intros x Ix. destruct (Sh x Ix) as (m & i & Im & En & Cl). rewrite En. cbn. split; [reflexivity|]. split; [exact Cl|]. eauto. }
    apply (my_catalog_found deparse order current view listed AO tabs (w_db w') mods (map (fun x => part (t_name x)) tabs)); auto.
    + intros k. unfold table_names. rewrite map_map. rewrite in_map_iff. split.
      * intros [o' Ho']. rewrite E in Ho'. destruct (in_dec (fun a b => decide (a = b)) ("", k) (cat_keys t)) as [J|J].
        -- apply CatProofs3.in_cat_keys in J as (n & [<-|[]] & J). cbn in J. rewrite map_map in J. apply in_map_iff in J as (x & Ek & Ix). exists x. split; [|exact Ix]. destruct (Pa x Ix) as (En & _). rewrite <- En. injection Ek as _ Ek. exact Ek.
        -- rewrite plus_lookup_out in Ho' by assumption. exfalso. apply (ap_objs _ _ At ("", k) o' Ho'). now left.
      * intros (x & <- & Ix). destruct (Pa x Ix) as (En & _). rewrite <- En. exists (OTable (want_tab DMySQL x)).
        assert (J : In (key_of (t_name x), OTable (want_tab DMySQL x)) (ns_objs DMySQL (Ns "" [] [] tabs))) by (apply CatProofs3.in_ns_objs; right; right; eauto).
        pose proof (proj2 Has (Ns "" [] [] tabs) _ _ (or_introl eq_refl) J) as Q. rewrite En in Q at 1. rewrite En. exact Q.
    + intros q Iq. apply in_map_iff in Iq as (x & <- & Ix). apply (Pa x Ix).
    + intros ns i. split.
      * intros [Ic _]. apply in_map_iff in Ic as (x & Ex & Ix). exists x. split; [exact Ix|]. destruct (Pa x Ix) as (En & _). rewrite Ex in En. exact En.
      * intros (x & Ix & En). destruct (Pa x Ix) as (_ & _ & m & Im & Em). rewrite En in Em. split; [|exists m; auto]. apply in_map_iff. exists x. rewrite En. auto.
    + intros x Ix. destruct (Pa x Ix) as (En & _). eauto.
  - intros _ n x c [<-|[]] Ix Ic. cbn in Ix. unfold mysql_comment. destruct (c_desc c) as [text|] eqn:Q; [|eauto]. destruct (mc_desc _ _ _ (mt_cols _ _ _ (S x Ix) c Ic) text Q) as [_ Ef]. rewrite Ef. pose proof (Ln x c text Ix Ic Q) as Le. destruct (Nat.ltb_spec 1024 (String.length text)); [lia|eauto].
  - unfold synchronize in H. destruct (gen_create DMySQL o [] (Ok t)) as [t' [l0|]] eqn:G; [exists t', l0; exact G|discriminate H].
Qed.
Print Assumptions C57_mysql_synchronize_twice.

(** [has_table] and [has_column] tell what is in the database. *)
Section Has.
  Context (I : infoschema) (literal : string -> option (string * string)) (current : string) (q : qid) (p : string * string).
  Hypothesis WT : forall a b, where_table literal current q a b = (String.eqb a (fst p) && String.eqb b (snd p))%bool.
  Lemma has_table_at : has_table I literal current q = true <-> exists r, table_at I p r.
  Proof.
    unfold has_table. rewrite Nat.ltb_lt. unfold q_table, table_at. split.
    - intros L. destruct (flat_map _ _) as [|r rs] eqn:E in L; [cbn in L; lia|]. assert (J : In r (r :: rs)) by now left. rewrite <- E in J. apply in_flat_map in J as (x & Ix & J). rewrite WT in J. destruct (_ && _)%bool eqn:Q in J; [|destruct J]. destruct J as [<-|[]].
      exists x. split; [exact Ix|]. apply andb_true_iff in Q as [Q1 Q2]. apply String.eqb_eq in Q1, Q2. destruct p. cbn in *. congruence.
    - intros (r & Ir & Er). assert (J : In r (flat_map (fun tab => if where_table literal current q (it_schema tab) (it_name tab) then [tab] else []) (is_tables I))). { apply in_flat_map. exists r. split; [exact Ir|]. rewrite WT, <- Er. cbn. rewrite !String.eqb_refl. now left. }
      destruct (flat_map _ _); [destruct J|cbn; lia].
  Qed.
  Lemma has_column_at c : (forall v, equals literal v (quote c) = String.eqb v c) -> (has_column I literal current q c = true <-> exists r, column_at I p r /\ ic_name r = c).
  Proof.
    intros EQ. unfold has_column. rewrite Nat.ltb_lt. unfold column_at. split.
    - intros L. destruct (flat_map _ _) as [|r rs] eqn:E in L; [cbn in L; lia|]. assert (J : In r (r :: rs)) by now left. rewrite <- E in J. apply in_flat_map in J as (x & Ix & J). rewrite EQ in J. destruct (String.eqb_spec (ic_name (snd x)) c) as [Ec|]; [|destruct J].
      unfold q_columns in Ix. apply in_flat_map in Ix as (y & Iy & J'). rewrite WT in J'. destruct (_ && _)%bool eqn:Q in J'; [|destruct J']. destruct J' as [<-|[]]. exists y. split; [|exact Ec]. split; [exact Iy|]. apply andb_true_iff in Q as [Q1 Q2]. apply String.eqb_eq in Q1, Q2. destruct p. cbn in *. congruence.
    - intros (r & (Ir & Er) & Ec). assert (J : In tt (flat_map (fun col => if equals literal (ic_name (snd col)) (quote c) then [tt] else []) (q_columns I literal current q))).
      { apply in_flat_map. exists (ic_pos r, r). split; [|cbn; rewrite EQ, Ec, String.eqb_refl; now left]. unfold q_columns. apply in_flat_map. exists r. split; [exact Ir|]. rewrite WT, <- Er. cbn. rewrite !String.eqb_refl. now left. }
      destruct (flat_map _ _); [destruct J|cbn; lia].
  Qed.
End Has.
Theorem C57_mysql_has_table : forall deparse I current D q, my_tells deparse I (my_home current) (fun s => s = "") D ->
  scope_id q = None -> has_char BS (local_id q) = false ->
  (has_table I mysql_literal current q = true <-> exists tb, db_objs D !! key_of q = Some (OTable tb)).
Proof.
  intros deparse I current D q TO Sc B. rewrite (has_table_at I mysql_literal current q (current, local_id q)).
  - assert (Ek : key_of q = ("", local_id q)) by (unfold key_of; now rewrite Sc). rewrite Ek. split.
    + intros (r & Tr). destruct (mt_only _ _ _ _ _ TO ("", local_id q) r eq_refl Tr) as [x X]. destruct (mt_objs _ _ _ _ _ TO ("", local_id q) x eq_refl X) as (tb & _ & -> & _). eauto.
    + intros (tb & H). destruct (mt_objs _ _ _ _ _ TO ("", local_id q) _ eq_refl H) as (_ & r & _ & Tr & _). eauto.
  - intros a b. unfold where_table. now rewrite Sc, equals_my.
Qed.
Print Assumptions C57_mysql_has_table.
Theorem C57_mysql_has_column : forall deparse I current D q tb c, my_tells deparse I (my_home current) (fun s => s = "") D ->
  scope_id q = None -> has_char BS (local_id q) = false -> has_char BS c = false -> db_objs D !! key_of q = Some (OTable tb) ->
  (has_column I mysql_literal current q c = true <-> is_Some (dt_cols tb !! c)).
Proof.
  intros deparse I current D q tb c TO Sc B Bc H. assert (Ek : key_of q = ("", local_id q)) by (unfold key_of; now rewrite Sc). rewrite Ek in H.
  destruct (mt_objs _ _ _ _ _ TO ("", local_id q) _ eq_refl H) as (tb' & _ & E & _ & _ & T). injection E as <-. rewrite (has_column_at I mysql_literal current q (current, local_id q)).
  - split; [intros (r & A & <-); exact (tr_only _ _ _ _ _ T r A)|]. intros [x X]. destruct (tr_cols _ _ _ _ _ T c x X) as (r & A & En & _). eauto.
  - intros a b. unfold where_table. now rewrite Sc, equals_my.
  - intros v. now apply equals_my.
Qed.
Print Assumptions C57_mysql_has_column.

(** ** SQL Server: no comments are stored; objects are read back without their descriptions ([hush]) *)
Notation ms_home := (fun k : okey => k).
Theorem C57_mssql_table : forall deparse I order current own D t s n,
  any_order order -> keys_ok I -> names_apart I -> ms_tells deparse I ms_home own D ->
  own s -> s <> "" -> t_name t = Qualified (Some s) n -> tab_wf DMSSQL t -> ms_tab_seen deparse (hush_tab t) ->
  db_objs D !! (s, n) = Some (OTable (want_tab DMSSQL t)) ->
  exists t', ms_table I order sql_literal current (t_name t) = Ok t' /\ table_keyed t' /\ table_eqb t' (hush_tab t) = true.
Proof.
  intros deparse I order current own D t s n AO K NA TO Ow NS Nm W S H. destruct (st_objs _ _ _ _ _ TO (s, n) _ Ow H) as (tb & r & E & Ta & _ & T). injection E as <-.
  rewrite <- (hush_want DMSSQL (or_introl eq_refl)) in T.
  destruct (ms_table_found deparse I order current K NA AO (hush_tab t) s n Nm NS (hush_tab_wf DMSSQL t W) S T r Ta) as (t' & G & _ & Ky & Q). eauto.
Qed.
Print Assumptions C57_mssql_table.
(** A schema that contains the tables of a namespace, and nothing else, is read back equal to the namespace. *)
Theorem C57_mssql_namespace : forall deparse I order current own D n,
  any_order order -> keys_ok I -> names_apart I -> ms_tells deparse I ms_home own D -> own (n_name n) ->
  ns_wf DMSSQL n -> ms_ns_seen deparse (hush_ns n) ->
  (forall k x, In (k, x) (ns_objs DMSSQL n) -> db_objs D !! k = Some x) ->
  (forall k x, db_objs D !! k = Some x -> fst k = n_name n -> In k (map key_of (ns_names n))) ->
  exists n', ms_namespace I order sql_literal current (Some (n_name n)) = Ok n' /\ n_name n' = n_name n /\ ns_keyed n' /\ ns_eqb n' (hush_ns n) = true.
Proof.
  intros deparse I order current own D n AO K NA TO Ow W S Has Only. apply (ms_namespace_found deparse I order current own K NA AO D (hush_ns n) (hush_ns_wf DMSSQL n W) S TO Ow).
  - rewrite (hush_objs DMSSQL (or_introl eq_refl)). exact Has.
  - rewrite hush_names. exact Only.
Qed.
Print Assumptions C57_mssql_namespace.
(** A module without schema: the tables of the current schema are read, and no others. *)
Theorem C57_mssql_current_tables : forall deparse I order current D n, any_order order -> keys_ok I ->
  ms_tells deparse I (fun k => (current, snd k)) (fun s => s = "") D ->
  ms_namespace I order sql_literal current None = Ok n ->
  forall k, (exists t, In t (n_tables n) /\ t_name t = Qualified None k) <-> is_Some (db_objs D !! ("", k)).
Proof.
  intros deparse I order current D n AO K TO H k.
  assert (NM : forall x, In x (q_ms_names I sql_literal current None) <-> is_Some (db_objs D !! ("", x))).
  { intros x. unfold q_ms_names. split.
    - intros J. apply in_flat_map in J as (r & Ir & J). destruct (String.eqb (st_schema r) current && negb (st_shipped r))%bool eqn:E; [|destruct J]. destruct J as [<-|[]].
      apply andb_true_iff in E as [E1 E2]. apply String.eqb_eq in E1. apply negb_true_iff in E2. apply (st_only _ _ _ _ _ TO ("", st_name r) eq_refl). cbn. destruct r as [a b c]; cbn in *; subst. exact Ir.
    - intros [o Ho]. destruct (st_objs _ _ _ _ _ TO ("", x) o eq_refl Ho) as (tb & r & _ & _ & J & _). apply in_flat_map. exists (STab current x false). split; [exact J|]. cbn. rewrite String.eqb_refl. now left. }
  assert (ND : List.NoDup (q_ms_names I sql_literal current None)).
  { unfold q_ms_names. rewrite flat_map_if. pose proof (ko_stab _ K) as N.
    assert (U : forall a b, In a (sys_tables I) -> In b (sys_tables I) -> (st_schema a, st_name a) = (st_schema b, st_name b) -> a = b) by (intros a b Ia Ib E; exact (keyed_eq _ _ _ _ N Ia Ib E)).
    apply keyed_nodup in N. revert N U. generalize (sys_tables I). induction l as [|x l IH]; intros N U; [constructor|]. inversion N; subst. cbn [List.filter].
    assert (R : List.NoDup (map st_name (List.filter (fun x0 => (String.eqb (st_schema x0) current && negb (st_shipped x0))%bool) l))) by (apply IH; [assumption|]; intros a b Ia Ib; apply U; now right).
    destruct (_ && _)%bool eqn:Q; [|exact R]. cbn. constructor; [|exact R]. intros J. apply in_map_iff in J as (y & E & J). apply filter_In in J as [Jy Qy].
    apply andb_true_iff in Q as [Q _], Qy as [Qy _]. apply String.eqb_eq in Q, Qy. rewrite (U y x) in Jy; [contradiction|now right|now left|congruence]. }
  assert (NM' : forall x, In x (order _ "tables" (q_ms_names I sql_literal current None)) <-> is_Some (db_objs D !! ("", x))).
  { intros x. rewrite <- NM. split; apply Permutation_in; [|apply Permutation_sym]; apply AO. }
  assert (ND' : List.NoDup (order _ "tables" (q_ms_names I sql_literal current None))) by (eapply Permutation_NoDup; [apply Permutation_sym, AO|exact ND]).
  unfold ms_namespace in H. destruct (order _ "tables" (q_ms_names I sql_literal current None)) as [|y ys].
  { injection H as <-. rewrite <- NM'. split; [intros (t & [] & _)|intros []]. }
  revert H NM' ND'. generalize (y :: ys) as names. intros names H NM' ND'. apply TextProofs1.bind_inv in H as (ts & M & H). injection H as <-. cbn [n_tables].
  apply map_res_forall2 in M.
  assert (TN : forall q t, ms_table I order sql_literal current q = Ok t -> t_name t = q).
  { intros q t G. unfold ms_table, get_table in G. destruct (has_table _ _ _ _); [|discriminate G]. apply TextProofs1.bind_inv in G as (? & _ & G). apply TextProofs1.bind_inv in G as (? & _ & G). cbn [bind] in G. now injection G as <-. }
  assert (EN : map t_name ts = map (Qualified None) names) by (clear - M TN; induction M; [reflexivity|]; cbn; f_equal; [now apply TN|assumption]).
  assert (EK : map t_key ts = names). { transitivity (map local_id (map t_name ts)); [now rewrite map_map|]. rewrite EN, map_map. apply map_id. }
  rewrite (ObjectDictProofs.make_id t_key ts) by (change (List.NoDup (map t_key ts)); rewrite EK; exact ND'). rewrite <- NM', <- EK, in_map_iff. split.
  - intros (t & It & E). exists t. split; [unfold t_key; now rewrite E|exact It].
  - intros (t & E & It). exists t. split; [exact It|]. pose proof (in_map t_name _ _ It) as J. rewrite EN in J. apply in_map_iff in J as (x & Ex & _). rewrite <- Ex. f_equal. unfold t_key in E. rewrite <- Ex in E. exact E.
Qed.
Print Assumptions C57_mssql_current_tables.
Theorem C57_mssql_discover : forall deparse order current view t D mods,
  any_order order -> cat_wf DMSSQL t -> (forall n, In n t -> ms_ns_seen deparse (hush_ns n)) ->
  Permutation mods (map n_name t) -> has_cat DMSSQL t D -> (forall k x, db_objs D !! k = Some x -> In (fst k) mods -> In k (cat_keys t)) ->
  ms_reports deparse view (fun s => In s mods) D ->
  exists c, discover (ms_explorer order current view) D mods = (c, true) /\ cat_keyed c /\ cat_eqb c (hush t) = true.
Proof.
  intros deparse order current view t D mods AO W S Pm Has Only V. apply (ms_catalog_found deparse order current view AO (hush t) D mods (hush_wf DMSSQL t W)); auto.
  - intros n In_. apply in_map_iff in In_ as (m & <- & Im). exact (S m Im).
  - unfold hush. rewrite map_map. exact Pm.
  - exact (hush_has DMSSQL (or_introl eq_refl) t D Has).
  - rewrite hush_cat_keys. exact Only.
Qed.
Print Assumptions C57_mssql_discover.
Theorem C57_mssql_synchronize_twice : forall deparse order current view o mods t w w' l s F,
  let X := ms_explorer order current view in
  any_order order -> CatProofs5.drops_all o ->
  cat_wf DMSSQL t -> cat_wf DMSSQL s -> step_ok DMSSQL s t -> apart s F -> apart t F ->
  (forall n, In n t -> ms_ns_seen deparse (hush_ns n)) -> Permutation mods (map n_name t) ->
  w_db w = plus_cat DMSSQL s F -> discover X (w_db w) mods = (s, true) ->
  synchronize DMSSQL o (engine_of DMSSQL) X None mods (Ok t) w = (w', true, l) ->
  ms_reports deparse view (fun s => In s mods) (w_db w') ->
  exists st, synchronize DMSSQL o (engine_of DMSSQL) X None mods (Ok t) w' = (World st (w_db w'), true, []).
Proof.
  intros deparse order current view o mods t w w' l s F X AO Ho Wt Ws [C HP] As At S Pm Ew Hd H V.
  destruct (synchronize_reaches DMSSQL o X mods t w w' l s F Ho Wt Ws C HP As At Ew Hd H) as [E _].
  apply synchronize_again_hushed; [now left|exact Wt| |].
  - apply (C57_mssql_discover deparse order current view t (w_db w') mods AO Wt S Pm).
    + rewrite E. now apply plus_has.
    + intros k x Hk Im. rewrite E in Hk. destruct (in_dec (fun a b => decide (a = b)) k (cat_keys t)) as [J|J]; [exact J|]. rewrite plus_lookup_out in Hk by assumption.
      exfalso. apply (ap_objs _ _ At k x Hk). now apply (Permutation_in _ Pm).
    + exact V.
  - unfold synchronize in H. destruct (gen_create DMSSQL o [] (Ok t)) as [t' [l0|]]; [eauto|discriminate].
Qed.
Print Assumptions C57_mssql_synchronize_twice.
(** On SQL Server and Oracle the statements do not depend on descriptions. *)
Theorem C57_descriptions_play_no_role : forall d o s t s' t', silent d -> hush s = hush s' -> hush t = hush t' ->
  match mutate_catalog d o s t, mutate_catalog d o s' t' with
  | Ok (_, _, l), Ok (_, _, l') => l = l'
  | Err e, Err e' => e = e'
  | _, _ => False
  end.
Proof.
  intros d o s t s' t' Sd Es Et. pose proof (hush_mutate_catalog d o s t Sd) as A. pose proof (hush_mutate_catalog d o s' t' Sd) as B. rewrite Es, Et, B in A.
  destruct (mutate_catalog d o s t) as [[[? ?] ?]|], (mutate_catalog d o s' t') as [[[? ?] ?]|]; cbn in A; congruence.
Qed.
Print Assumptions C57_descriptions_play_no_role.
Theorem C57_mssql_has_table : forall deparse I current own D s n, ms_tells deparse I ms_home own D -> own s ->
  (forall r, table_at I (s, n) r -> In (STab s n false) (sys_tables I)) ->
  (has_table I sql_literal current (Qualified (Some s) n) = true <-> exists tb, db_objs D !! (s, n) = Some (OTable tb)).
Proof.
  intros deparse I current own D s n TO Ow Sy. rewrite (has_table_at I sql_literal current _ (s, n)).
  - split.
    + intros (r & Tr). destruct (st_only _ _ _ _ _ TO (s, n) Ow (Sy r Tr)) as [x X]. destruct (st_objs _ _ _ _ _ TO (s, n) x Ow X) as (tb & _ & -> & _). eauto.
    + intros (tb & H). destruct (st_objs _ _ _ _ _ TO (s, n) _ Ow H) as (_ & r & _ & Tr & _). eauto.
  - intros a b. unfold where_table. cbn [scope_id local_id]. now rewrite !equals_std.
Qed.
Print Assumptions C57_mssql_has_table.
Theorem C57_mssql_has_column : forall deparse I current own D s n tb c, ms_tells deparse I ms_home own D -> own s -> db_objs D !! (s, n) = Some (OTable tb) ->
  (has_column I sql_literal current (Qualified (Some s) n) c = true <-> is_Some (dt_cols tb !! c)).
Proof.
  intros deparse I current own D s n tb c TO Ow H. destruct (st_objs _ _ _ _ _ TO (s, n) _ Ow H) as (tb' & _ & E & _ & _ & T). injection E as <-. rewrite (has_column_at I sql_literal current _ (s, n)).
  - split; [intros (r & A & <-); exact (tr_only _ _ _ _ _ T r A)|]. intros [x X]. destruct (tr_cols _ _ _ _ _ T c x X) as (r & A & En & _). eauto.
  - intros a b. unfold where_table. cbn [scope_id local_id]. now rewrite !equals_std.
  - intros v. apply equals_std.
Qed.
Print Assumptions C57_mssql_has_column.

(** ** Instances *)
Section Twice.
  (** a first synchronization of an empty database *)
  Context (d : dialect) (X : explorer) (t : catalog) (m : string) (n : nat).
  Hypothesis W : cat_wf d t.
  Hypothesis St : step_ok d nothing t.
  Hypothesis Nf : discover X empty_db [m] = (nothing, true).
  Hypothesis Gm : match snd (gen_mutate d default_options nothing t) with Ok l => List.length l = Datatypes.S n | Err _ => False end.
  Hypothesis Gc : exists l, gen_create d default_options [] (Ok t) = (t, Ok l).
  Lemma first_time : exists l, synchronize d default_options (engine_of d) X None [m] (Ok t) (World [] empty_db) = (World (sorted_or_same t) (plus_cat d t empty_db), true, l) /\ List.length l = Datatypes.S n.
  Proof.
    destruct (gen_mutate d default_options nothing t) as [s' [l|e]] eqn:M; [|destruct Gm]. cbn in Gm. exists l. split; [|exact Gm].
    assert (E : exec_all (engine_of d) l empty_db = Some (plus_cat d t empty_db)).
    { rewrite (nothing_empty d) at 1. unfold gen_mutate in M. destruct (mutate_catalog d default_options nothing t) as [[[a b] c]|] eqn:M'; [|discriminate M]. injection M as -> ->. destruct St as [C HP].
      exact (mutation_frame d default_options nothing t s' b l empty_db M' (conj eq_refl (conj eq_refl (conj eq_refl eq_refl))) (nothing_wf d) W C HP (empty_apart _) (empty_apart _)). }
    destruct Gc as [l0 G]. unfold synchronize. rewrite G. cbn [w_db]. rewrite Nf. cbn [negb]. rewrite M. destruct l as [|x l]; [discriminate Gm|]. now rewrite (exec_upto_all _ _ _ _ E).
  Qed.
End Twice.
Ltac nostep := split; [constructor|];
  [|intros e n ty q (a & b & x & Ia & Ib & En & R & _); cases|intros e (a & b & x & Ia & Ib & En & R & _); cases|intros e (a & b & x & Ia & Ib & En & R & _); cases].
Lemma y_step : step_ok DMySQL nothing y_cat.
Proof. nostep. intros a b Ia Ib E. cases. constructor; intros; cases. Qed.
Lemma s_step : step_ok DMSSQL nothing s_cat.
Proof. nostep. intros a b Ia Ib E. cases. discriminate. Qed.
Definition y_listed (D : db) (m : string) : list string := List.filter (starts_with (m ++ "__")%string) (tables_in "app" (y_view D)).
Notation y_explorer := (my_explorer stored "app" y_view y_listed).
Notation s_explorer := (ms_explorer stored "dbo" s_view).
Lemma y_plus : plus_cat DMySQL y_cat empty_db = y_db.
Proof. unfold plus_cat, y_db, empty_db. cbn [db_schemas db_objs]. f_equal; [set_solver|apply (right_id ∅ (∪))]. Qed.
Lemma s_plus : plus_cat DMSSQL s_cat empty_db = s_db.
Proof. unfold plus_cat, s_db, empty_db. cbn [db_schemas db_objs]. f_equal; [set_solver|apply (right_id ∅ (∪))]. Qed.
Lemma y_ordered : keys_in_order y_info stored.
Proof.
  split; [|reflexivity]. intros s t n. cbn [is_usage y_info List.filter]. repeat match goal with |- context [if ?b then _ else _] => destruct b end; repeat constructor; cbn; lia.
Qed.
Lemma y_in_view : y_view y_db = y_info.
Proof. unfold y_view. rewrite (y_has _ (OTable (want_tab DMySQL y_person))) by (cbn; auto). reflexivity. Qed.
Lemma s_in_view : s_view s_db = s_info.
Proof. unfold s_view. rewrite (s_has _ (OTable (want_tab DMSSQL s_person))) by (cbn; auto). reflexivity. Qed.
Lemma y_reports : my_reports my_deparse "app" y_view y_listed y_db ["shop"].
Proof.
  unfold my_reports, y_listed. rewrite y_in_view. split; [exact y_keys|]. split; [exact y_tells|]. intros m Im. cases. split; [vm_compute; listdup|]. intros t. change (scope_of "shop") with (Some "shop"). rewrite in_namespace_some. apply filter_In.
Qed.
Lemma s_reports : ms_reports plain_deparse s_view (fun s => In s ["shop"]) s_db.
Proof. unfold ms_reports. rewrite s_in_view. split; [exact s_keys|]. split; [exact s_apart|exact s_tells]. Qed.
(** the first call creates everything, the second does nothing *)
Example C57_mysql_example_twice : exists w' l st,
  synchronize DMySQL default_options (engine_of DMySQL) y_explorer None ["shop"] (Ok y_cat) (World [] empty_db) = (w', true, l) /\ List.length l = 4 /\
  synchronize DMySQL default_options (engine_of DMySQL) y_explorer None ["shop"] (Ok y_cat) w' = (World st (w_db w'), true, []).
Proof.
  assert (Nf : discover y_explorer empty_db ["shop"] = (nothing, true)) by (vm_compute; reflexivity).
  destruct (first_time DMySQL y_explorer y_cat "shop" 3) as (l & S1 & L); [exact y_wf|exact y_step|exact Nf|vm_compute; reflexivity|eexists; vm_compute; reflexivity|]. rewrite y_plus in S1.
  destruct (C57_mysql_synchronize_twice my_deparse stored "app" y_view y_listed default_options ["shop"] y_tabs (World [] empty_db) (World (sorted_or_same y_cat) y_db) l nothing empty_db
    stored_any) with (2 := conj eq_refl (conj eq_refl (conj eq_refl eq_refl)) : CatProofs5.drops_all default_options) (16 := S1) as [st S2]; try exact (empty_apart _).
  - cbn [w_db]. rewrite y_in_view. exact y_ordered.
  - exact y_wf.
  - exact (nothing_wf _).
  - exact y_step.
  - exact y_seen.
  - intros x c text Ix Ic E. cases; try discriminate E; injection E as <-; cbn; lia.
  - intros x Ix. exists "shop". cases; eexists; (split; [cbn; auto|]); (split; [reflexivity|]); (split; [intros (a & b & Z); destruct a as [|? [|? [|? [|? [|? ?]]]]]; discriminate Z|intros (a & Z); destruct a as [|? [|? [|? [|? [|? ?]]]]]; discriminate Z]).
  - intros m n Im E. cases. injection E as <-. split; [intros (a & b & Z); destruct a as [|? [|? [|? [|? [|? ?]]]]]; discriminate Z|intros (a & Z); destruct a as [|? [|? [|? [|? [|? ?]]]]]; discriminate Z].
  - listdup.
  - discriminate.
  - exact (nothing_empty _).
  - exact Nf.
  - exact y_reports.
  - exists (World (sorted_or_same y_cat) y_db), l, st. split; [exact S1|]. split; [exact L|exact S2].
Qed.
Example C57_mssql_example_twice : exists w' l st,
  synchronize DMSSQL default_options (engine_of DMSSQL) s_explorer None ["shop"] (Ok s_cat) (World [] empty_db) = (w', true, l) /\ List.length l = 5 /\
  synchronize DMSSQL default_options (engine_of DMSSQL) s_explorer None ["shop"] (Ok s_cat) w' = (World st (w_db w'), true, []).
Proof.
  assert (Nf : discover s_explorer empty_db ["shop"] = (nothing, true)) by (vm_compute; reflexivity).
  destruct (first_time DMSSQL s_explorer s_cat "shop" 4) as (l & S1 & L); [exact s_wf|exact s_step|exact Nf|vm_compute; reflexivity|eexists; vm_compute; reflexivity|]. rewrite s_plus in S1.
  destruct (C57_mssql_synchronize_twice plain_deparse stored "dbo" s_view default_options ["shop"] s_cat (World [] empty_db) _ _ nothing empty_db
    stored_any (conj eq_refl (conj eq_refl (conj eq_refl eq_refl))) s_wf (nothing_wf _) s_step (empty_apart _) (empty_apart _) s_seen (Permutation_refl _) (nothing_empty _) Nf S1 s_reports) as [st S2].
  exists (World (sorted_or_same s_cat) s_db), l, st. split; [exact S1|]. split; [exact L|exact S2].
Qed.
Example C57_mysql_example_table : exists t, my_table y_info stored mysql_literal "app" (shp "person") = Ok t /\ table_eqb t y_person = true.
Proof. eexists. split; vm_compute; reflexivity. Qed.
Example C57_mssql_example_table : exists t, ms_table s_info stored sql_literal "dbo" (shop "person") = Ok t /\ table_eqb t (hush_tab s_person) = true /\ table_eqb t s_person = false.
Proof. eexists. split; [vm_compute; reflexivity|]. split; vm_compute; reflexivity. Qed.
Example C57_example_has : has_table y_info mysql_literal "app" (shp "person") = true /\ has_table y_info mysql_literal "app" (shp "user") = false /\
  has_column s_info sql_literal "dbo" (shop "person") "name" = true /\ has_column s_info sql_literal "dbo" (shop "order") "name" = false.
Proof. vm_compute. auto. Qed.

(** ** What discovery does not read back *)
(** MySQL shows the default of a text column without quotes: it never equals the literal that was declared. *)
Lemma quote_longer s : String.length (quote s) >= 2 + String.length s.
Proof.
  unfold quote. rewrite !PyStr.append_length. cbn [String.length]. assert (L : forall r, String.length r <= String.length (replace1 QT "''" r)); [|specialize (L s); lia].
  induction r as [|a r IH]; [reflexivity|]. unfold replace1 in *. cbn [translate]. rewrite PyStr.append_length. destruct (Ascii.eqb a QT); cbn [String.length str1]; lia.
Qed.
Theorem C57_mysql_text_default_refuted : forall r c c' s, ic_default r = Some s -> c_default c = Some (quote s) -> my_column r = Ok c' -> col_eqb c' c = false.
Proof.
  intros r c c' s D E H. unfold my_column in H. destruct (Discover.mysql_discover _ _ _ _ _ _); [|discriminate H]. injection H as <-. unfold col_eqb. cbn [c_default]. rewrite D, E.
  assert (Q : os_eqb (Some s) (Some (quote s)) = false). { cbn. apply String.eqb_neq. intros Q. pose proof (quote_longer s) as L. rewrite <- Q in L. lia. }
  rewrite Q, !andb_false_r. reflexivity.
Qed.
Print Assumptions C57_mysql_text_default_refuted.
(** so every synchronization alters the column again *)
Definition greet_info (shown : string) : infoschema := Info [ITab "app" "greeting" ""]
  [ICol "app" "greeting" "id" 1 "int" "int" "NO" None None (Some 10%Z) (Some 0%Z) None "" ""; ICol "app" "greeting" "text" 2 "varchar" "varchar(64)" "NO" (Some shown) (Some 64%Z) None None None "" ""]
  [ICon "app" "PRIMARY" "app" "greeting" "PRIMARY KEY"] [IUse "app" "PRIMARY" "app" "greeting" "id" 1 None] [] [] [].
Definition greet : catalog := [Ns "" [] [] [Tab (Prefixed None "greeting") [col "id" int4; Col "text" (TSub MyVarChar (TVarChar (Some 64%Z))) false (Some "'hello'") false None] ["id"] [] None None]].
Example C57_mysql_text_default_example_refuted : my_deparse (TVarChar None) "'hello'" = "hello" /\
  exists s x, discover (my_explorer stored "app" (fun _ => greet_info "hello") (fun _ _ => ["greeting"])) empty_db [""] = (s, true) /\ snd (gen_mutate DMySQL default_options s greet) = Ok [x].
Proof. split; [reflexivity|]. eexists _, _. split; [vm_compute; reflexivity|]. vm_compute. reflexivity. Qed.

(** MySQL: the query for foreign keys has no ORDER BY: if the rows come in another order, so do the columns. *)
Definition reversed (A : Type) (q : string) (l : list A) : list A := rev l.
Definition pair_info : infoschema := Info [ITab "app" "line" ""; ITab "app" "note" ""]
  [ICol "app" "note" "o" 1 "int" "int" "NO" None None (Some 10%Z) (Some 0%Z) None "" ""; ICol "app" "note" "l" 2 "int" "int" "NO" None None (Some 10%Z) (Some 0%Z) None "" ""]
  [ICon "app" "fk_line" "app" "note" "FOREIGN KEY"] [IUse "app" "fk_line" "app" "note" "o" 1 (Some ("app", "line", "order")); IUse "app" "fk_line" "app" "note" "l" 2 (Some ("app", "line", "nr"))]
  [IRef "app" "fk_line" "note" "app" "PRIMARY"] [] [].
Example C57_mysql_key_order_refuted : any_order reversed /\
  (exists t, my_table pair_info stored mysql_literal "app" (Prefixed None "note") = Ok t /\ t_constraints t = [CForeign "fk_line" ["o"; "l"] (Prefixed None "line") ["order"; "nr"]]) /\
  (exists t, my_table pair_info reversed mysql_literal "app" (Prefixed None "note") = Ok t /\ t_constraints t = [CForeign "fk_line" ["l"; "o"] (Prefixed None "line") ["nr"; "order"]]).
Proof. split; [intros A q l; symmetry; apply Permutation_rev|]. split; eexists; (split; [vm_compute; reflexivity|reflexivity]). Qed.

(** MySQL reads backslashes in literals: a table whose name has one is not found. *)
Definition slash_info : infoschema := Info [ITab "app" (String "a" (String BS "b")) ""] [] [] [] [] [] [].
Example C57_mysql_backslash_refuted : has_table slash_info mysql_literal "app" (Prefixed None (String "a" (String BS "b"))) = false.
Proof. vm_compute. reflexivity. Qed.

(** SQL Server shows the defaults in parentheses, numbers in two pairs: such a default never equals the one that was declared. *)
Lemma eqb_longer s u : String.length s < String.length u -> String.eqb u s = false.
Proof. intros L. apply String.eqb_neq. intros E. rewrite E in L. lia. Qed.
Theorem C57_mssql_default_refuted : forall I order literal current q c' c e,
  In c' (match ms_columns I order literal current q with Ok l => l | Err _ => [] end) ->
  default_value (default_columns I order literal q) (c_name c') = Some ("(" ++ e ++ ")")%string -> c_default c = Some e -> col_eqb c' c = false.
Proof.
  intros I order literal current q c' c e H D E. unfold ms_columns in H. destruct (map_res ms_column _) as [cs|]; [|destruct H]. cbn [bind] in H. apply in_map_iff in H as (x & <- & _).
  unfold col_eqb, ms_complete. change (c_name (ms_complete I order literal q x)) with (c_name x) in D. cbn [c_default]. rewrite D, E. 
  assert (Q : os_eqb (Some ("(" ++ e ++ ")")%string) (Some e) = false). { cbn [os_eqb]. apply eqb_longer. rewrite !PyStr.append_length. cbn. lia. }
  rewrite Q, !andb_false_r. reflexivity.
Qed.
Print Assumptions C57_mssql_default_refuted.
Definition count_info : infoschema := Info [ITab "shop" "counter" ""]
  [ms_int "counter" "id" 1 None; ms_int "counter" "visits" 2 (Some "((0))")]
  [ICon "shop" "pk_counter" "shop" "counter" "PRIMARY KEY"] [IUse "shop" "pk_counter" "shop" "counter" "id" 1 None] [] [STab "shop" "counter" false]
  [SCol "shop" "counter" "id" false None; SCol "shop" "counter" "visits" false (Some "((0))")].
Definition counter : catalog := [Ns "shop" [] [] [Tab (shop "counter") [col "id" int4; Col "visits" int4 false (Some "0") false None] ["id"] [] None None]].
Example C57_mssql_default_example_refuted : exists s l, discover (ms_explorer stored "dbo" (fun _ => count_info)) empty_db ["shop"] = (s, true) /\
  snd (gen_mutate DMSSQL default_options s counter) = Ok l /\ l <> [].
Proof. eexists _, _. split; [vm_compute; reflexivity|]. split; [vm_compute; reflexivity|discriminate]. Qed.

(** SQL Server, tables without schema: the target of a foreign key comes back with the schema, and identity and defaults are looked
    for in [dbo], whatever the current schema is. *)
Definition here_info (s : string) : infoschema := Info [ITab s "person" ""; ITab s "order" ""]
  [ICol s "person" "id" 1 "int" "" "NO" None None (Some 10%Z) (Some 0%Z) None "" ""; ICol s "order" "id" 1 "int" "" "NO" None None (Some 10%Z) (Some 0%Z) None "" ""]
  [ICon s "pk_person" s "person" "PRIMARY KEY"; ICon s "fk_order" s "order" "FOREIGN KEY"] [IUse s "pk_person" s "person" "id" 1 None; IUse s "fk_order" s "order" "id" 1 None]
  [IRef s "fk_order" "" s "pk_person"] [STab s "person" false; STab s "order" false] [SCol s "person" "id" true None; SCol s "order" "id" false None].
Example C57_mssql_current_schema_refuted :
  (exists t, ms_table (here_info "dbo") stored sql_literal "dbo" (Qualified None "order") = Ok t /\ t_constraints t = [CForeign "fk_order" ["id"] (Qualified (Some "dbo") "person") ["id"]]) /\
  (exists t, ms_table (here_info "dbo") stored sql_literal "dbo" (Qualified None "person") = Ok t /\ map c_identity (t_columns t) = [true]) /\
  (exists t, ms_table (here_info "app") stored sql_literal "app" (Qualified None "person") = Ok t /\ map c_identity (t_columns t) = [false]).
Proof. repeat split; eexists; (split; [vm_compute; reflexivity|reflexivity]). Qed.

(** SQL Server: a foreign key that refers to the columns of a key in another order is read back with the wrong pairs. *)
Definition cross_info : infoschema := Info [ITab "shop" "line" ""; ITab "shop" "note" ""]
  [ms_int "note" "l" 1 None; ms_int "note" "o" 2 None]
  [ICon "shop" "pk_line" "shop" "line" "PRIMARY KEY"; ICon "shop" "fk_line" "shop" "note" "FOREIGN KEY"]
  [IUse "shop" "pk_line" "shop" "line" "order" 1 None; IUse "shop" "pk_line" "shop" "line" "nr" 2 None; IUse "shop" "fk_line" "shop" "note" "l" 1 None; IUse "shop" "fk_line" "shop" "note" "o" 2 None]
  [IRef "shop" "fk_line" "" "shop" "pk_line"] [STab "shop" "line" false; STab "shop" "note" false] [].
(** FOREIGN KEY (l, o) REFERENCES line (nr, order), where the key of [line] is (order, nr) *)
Example C57_mssql_crossed_key_refuted : exists t, ms_table cross_info stored sql_literal "dbo" (shop "note") = Ok t /\ t_constraints t = [CForeign "fk_line" ["l"; "o"] (shop "line") ["order"; "nr"]].
Proof. eexists. split; [vm_compute; reflexivity|reflexivity]. Qed.
