(** Proofs about the explorers of MySQL and SQL Server: namespaces and catalogs. *)
From Verif Require Import PyStr QuoteModel QuoteSpec QuoteProofs ObjectDict ObjectDictProofs Types EqProofs Objects SqlAst Ddl Mutate DbSpec CatSpec CatProofs3 MutSpec RefSpec KeySpec Discover PropsDiscover PgProofs1 NoopProofs PgProofs3 PgProofs4 PgProofs5 PgProofs6 IsExplore IsCatSpec IsSeenSpec IsProofs1 IsProofs2 Flat FlatSpec PropsFlat Session SessionSpec SessionProofs.
From Verif Require Factory DiscoverSpec PgExplore MergeProofs NsProofs4 NsProofs5.
From Coq Require Import List String Sorted Permutation Lia.
From stdpp Require Import gmap strings.

(** modules are mapped to namespaces, or to the current schema (base.py:1397-1403); the latter is written "" *)
Definition scope_of (m : string) : option string := if String.eqb m "" then None else Some m.

(** ** SQL Server *)
Section MsNs.
  Context (deparse : sqltype -> string -> string) (I : infoschema) (order : forall A : Type, string -> list A -> list A) (current : string) (own : string -> Prop).
  Hypothesis K : keys_ok I.
  Hypothesis NA : names_apart I.
  Hypothesis AO : any_order order.
  Context (D : db) (n : namespace).
  Hypothesis W : ns_wf DMSSQL n.
  Hypothesis S : ms_ns_seen deparse n.
  Hypothesis TO : ms_tells deparse I (fun k => k) own D.
  Hypothesis Sch : own (n_name n).
  Hypothesis Has : forall k x, In (k, x) (ns_objs DMSSQL n) -> db_objs D !! k = Some x.
  Hypothesis Only : forall k x, db_objs D !! k = Some x -> fst k = n_name n -> In k (map key_of (ns_names n)).
  Notation s := (n_name n).

  Lemma ms_scoped t : In t (n_tables n) -> t_name t = Qualified (Some s) (t_key t) /\ key_of (t_name t) = (s, t_key t).
  Proof. intros It. pose proof (ms_ids _ _ S t It) as E. split; [exact E|]. rewrite E. reflexivity. Qed.
  Lemma ms_names k : In k (q_ms_names I sql_literal current (Some s)) <-> In k (map t_key (n_tables n)).
  Proof.
    unfold q_ms_names. split.
    - intros H. apply in_flat_map in H as (x & Ix & H). rewrite equals_std in H. destruct (String.eqb (st_schema x) s && negb (st_shipped x))%bool eqn:E; [|destruct H]. destruct H as [<-|[]].
      apply andb_true_iff in E as [E1 E2]. apply String.eqb_eq in E1. apply negb_true_iff in E2.
      destruct (st_only _ _ _ _ _ TO (s, st_name x) Sch) as [o Ho]; [cbn; destruct x as [a b c]; cbn in *; subst; exact Ix|].
      pose proof (Only _ _ Ho eq_refl) as J. unfold ns_names in J. destruct (ms_types _ _ S) as [-> ->] in J. cbn in J. rewrite map_map in J. apply in_map_iff in J as (t & E & It). destruct (ms_scoped t It) as [_ E']. rewrite E' in E. injection E as <-. now apply in_map.
    - intros H. apply in_map_iff in H as (t & <- & It). destruct (ms_scoped t It) as [_ E].
      assert (O : db_objs D !! key_of (t_name t) = Some (OTable (want_tab DMSSQL t))) by (apply Has, in_ns_objs; right; right; eauto). rewrite E in O.
      destruct (st_objs _ _ _ _ _ TO (s, t_key t) _ Sch O) as (tb & r & _ & _ & J & _). apply in_flat_map. exists (STab s (t_key t) false). split; [exact J|]. cbn [st_schema st_shipped st_name]. rewrite equals_std, String.eqb_refl. now left.
  Qed.
  Lemma ms_names_nodup : List.NoDup (q_ms_names I sql_literal current (Some s)).
  Proof.
    unfold q_ms_names. rewrite flat_map_if. pose proof (ko_stab _ K) as N.
    assert (U : forall a b, In a (sys_tables I) -> In b (sys_tables I) -> (st_schema a, st_name a) = (st_schema b, st_name b) -> a = b) by (intros a b Ia Ib E; exact (keyed_eq _ _ _ _ N Ia Ib E)).
    apply keyed_nodup in N. revert N U. generalize (sys_tables I). induction l as [|x l IH]; intros N U; [constructor|]. inversion N; subst. cbn [List.filter].
    assert (R : List.NoDup (map st_name (List.filter (fun x0 => (equals sql_literal (st_schema x0) (quote s) && negb (st_shipped x0))%bool) l))) by (apply IH; [assumption|]; intros a b Ia Ib; apply U; now right).
    destruct (_ && _)%bool eqn:Q; [|exact R]. cbn. constructor; [|exact R]. intros J. apply in_map_iff in J as (y & E & J). apply filter_In in J as [Jy Qy].
    apply andb_true_iff in Q as [Q _], Qy as [Qy _]. rewrite equals_std in Q, Qy. apply String.eqb_eq in Q, Qy. rewrite (U y x) in Jy; [contradiction|now right|now left|congruence].
  Qed.
  Lemma ms_one t : In t (n_tables n) -> exists t', ms_table I order sql_literal current (Qualified (Some s) (t_key t)) = Ok t' /\ t_key t' = t_key t /\ table_keyed t' /\ table_eqb t' t = true.
  Proof.
    intros It. destruct (ms_scoped t It) as [E1 E2].
    assert (O : db_objs D !! key_of (t_name t) = Some (OTable (want_tab DMSSQL t))) by (apply Has, in_ns_objs; right; right; eauto). rewrite E2 in O.
    destruct (st_objs _ _ _ _ _ TO (s, t_key t) _ Sch O) as (tb & r & Eo & Ta & _ & T). injection Eo as <-.
    destruct (ms_table_found deparse I order current K NA AO t s (t_key t) E1 (ms_name _ _ S) (nw_table _ _ W t It) (ms_tables _ _ S t It) T r Ta) as (t' & G & Nm & Ky & Q).
    rewrite <- E1. exists t'. split; [exact G|]. split; [unfold t_key; now rewrite Nm|]. split; [exact Ky|exact Q].
  Qed.
  Lemma ms_namespace_found : exists n', ms_namespace I order sql_literal current (Some s) = Ok n' /\ n_name n' = s /\ ns_keyed n' /\ ns_eqb n' n = true.
  Proof.
    destruct (ns_parts_nodup n) as (_ & _ & N3); [apply nodup_list, (nw_keys _ _ W)|].
    destruct (collect t_key (fun k => ms_table I order sql_literal current (Qualified (Some s) k)) table_keyed table_eqb _ _ (n_tables n) (AO _ "tables"%string _) ms_names_nodup N3 ms_names ms_one) as (ts & E3 & K3 & M3 & Q3 & Z3).
    unfold ms_namespace. destruct (order string "tables"%string (q_ms_names I sql_literal current (Some s))) as [|x xs] eqn:Eo.
    - cbn in E3. injection E3 as <-. destruct (ms_some _ _ S). now apply Z3.
    - rewrite E3. cbn [bind]. rewrite (make_id t_key ts K3). eexists. split; [reflexivity|]. split; [reflexivity|]. split.
      + constructor; cbn [n_enums n_structs n_tables]; [constructor|constructor|exact K3|intros x0 []|exact M3].
      + unfold ns_eqb. cbn. destruct (ms_types _ _ S) as [-> ->]. rewrite String.eqb_refl, Q3. reflexivity.
  Qed.
End MsNs.

Section MsDiscover.
  Context (deparse : sqltype -> string -> string) (order : forall A : Type, string -> list A -> list A) (current : string) (view : db -> infoschema).
  Definition ms_explorer : explorer := fun D m => ms_namespace (view D) order sql_literal current (scope_of m).
  (** everything: the views are consistent and report database [D] in the schemas [own] *)
  Definition ms_reports (own : string -> Prop) (D : db) : Prop := keys_ok (view D) /\ names_apart (view D) /\ ms_tells deparse (view D) (fun k => k) own D.
  Hypothesis AO : any_order order.
  Context (t : catalog) (D : db) (mods : list string).
  Hypothesis W : cat_wf DMSSQL t.
  Hypothesis S : forall n, In n t -> ms_ns_seen deparse n.
  Hypothesis Pm : Permutation mods (map n_name t).
  Hypothesis Has : has_cat DMSSQL t D.
  Hypothesis Only : forall k x, db_objs D !! k = Some x -> In (fst k) mods -> In k (cat_keys t).
  Hypothesis V : ms_reports (fun s => In s mods) D.
  Lemma ms_catalog_found : sees_at ms_explorer mods t D.
  Proof.
    destruct V as (K & NA & TO). assert (N : List.NoDup (map n_name t)) by apply nodup_list, (cw_names _ _ W).
    apply discover_found; [exact N|exact Pm|]. intros n Hn. pose proof (S n Hn) as Sn. pose proof (cw_ns _ _ W n Hn) as Wn.
    unfold ms_explorer, scope_of. destruct (String.eqb_spec (n_name n) "") as [Z|Z]; [destruct (ms_name _ _ Sn Z)|].
    apply (ms_namespace_found deparse (view D) order current _ K NA AO D n Wn Sn TO).
    - apply (Permutation_in _ (Permutation_sym Pm)). now apply in_map.
    - intros k x J. exact (proj2 Has n k x Hn J).
    - intros k x H E. assert (J : In k (cat_keys t)). { apply (Only k x H). rewrite E. apply (Permutation_in _ (Permutation_sym Pm)). now apply in_map. }
      apply in_cat_keys in J as (m & Im & J). assert (m = n) as ->; [|exact J]. apply (keyed_eq n_name t m n N Im Hn). rewrite <- E. apply in_map_iff in J as (q & <- & Iq). symmetry. exact (nw_scope _ _ (cw_ns _ _ W m Im) q Iq).
  Qed.
End MsDiscover.

(** ** MySQL *)
Lemma merge_fresh {A} (key : A -> string) eqA op : forall self, List.NoDup (map key (self ++ op)) -> merge_objs key eqA self op = Ok (self ++ op).
Proof.
  induction op as [|x op IH]; intros self N; cbn; [now rewrite app_nil_r|]. rewrite map_app in N. cbn in N.
  assert (G : od_get key (key x) self = None). { apply get_none. intros J. apply NoDup_remove_2 in N. apply N, in_or_app. now left. }
  rewrite G, (MergeProofs.add_fresh key x self G). cbn [bind]. rewrite IH; [now rewrite <- app_assoc|]. rewrite !map_app. cbn. rewrite <- app_assoc. exact N.
Qed.
Lemma map_res_app {A B} (f : A -> res B) l1 l2 r : map_res f (l1 ++ l2) = Ok r -> exists r1 r2, map_res f l1 = Ok r1 /\ map_res f l2 = Ok r2 /\ r = (r1 ++ r2)%list.
Proof.
  intros H. apply map_res_forall2 in H. apply Forall2_app_inv_l in H as (r1 & r2 & F1 & F2 & ->). exists r1, r2. repeat split; now apply map_res_forall2.
Qed.
Lemma map_res_ext {A B C} (f : A -> res B) (g : C -> res B) (h : A -> C) l : (forall x, In x l -> f x = g (h x)) -> map_res g (map h l) = map_res f l.
Proof. induction l as [|x l IH]; intros H; [reflexivity|]. cbn. rewrite <- (H x (or_introl eq_refl)). destruct (f x); [cbn|reflexivity]. rewrite IH; [reflexivity|]. intros y Iy. apply H. now right. Qed.

Section MyDiscover.
  Context (deparse : sqltype -> string -> string) (order : forall A : Type, string -> list A -> list A) (current : string) (view : db -> infoschema) (listed : db -> string -> list string).
  Definition my_explorer : explorer := fun D m => my_namespace (view D) order mysql_literal current (mysql_ids (scope_of m) (listed D m)).
  Definition tables_in (V : infoschema) : list string := map it_name (List.filter (fun r => String.eqb (it_schema r) current) (is_tables V)).
  (** the views are consistent and report database [D]; the server answers the query for the names of tables in the
      current schema (C33) *)
  Definition my_reports (D : db) (mods : list string) : Prop :=
    keys_ok (view D) /\ my_tells deparse (view D) (fun k => (current, snd k)) (fun s => s = ""%string) D /\
    forall m, In m mods -> answers (in_namespace (scope_of m)) (tables_in (view D)) (listed D m).
  Hypothesis AO : any_order order.
  Context (tabs : list table) (D : db) (mods : list string) (created : list (option string * string)).
  Notation t := [Ns "" [] [] tabs].
  Hypothesis W : cat_wf DMySQL t.
  Hypothesis S : forall x, In x tabs -> my_tab_seen deparse DMySQL x.
  Hypothesis Has : has_cat DMySQL t D.
  (** the tables of the current schema *)
  Hypothesis All : forall k, is_Some (db_objs D !! (""%string, k)) <-> In k (table_names created).
  Hypothesis Clear : forall q, In q created -> clear_id q.
  Hypothesis CM : forall m n, In m mods -> scope_of m = Some n -> clean n.
  (** those of the modules are in the catalog *)
  Hypothesis Mine : forall ns i, (In (ns, i) created /\ exists m, In m mods /\ scope_of m = ns) <-> exists x, In x tabs /\ t_name x = Prefixed ns i.
  Hypothesis Shape : forall x, In x tabs -> exists ns i, t_name x = Prefixed ns i.
  Hypothesis NM : List.NoDup mods.
  Hypothesis SM : mods <> [].
  Hypothesis V : my_reports D mods.
  Hypothesis KO : keys_in_order (view D) order.

  Lemma scope_inj m m' : scope_of m = scope_of m' -> m = m'.
  Proof. unfold scope_of. destruct (String.eqb_spec m ""), (String.eqb_spec m' ""); congruence. Qed.
  Lemma tables_in_spec k : In k (tables_in (view D)) <-> In k (table_names created).
  Proof.
    destruct V as (K & TO & _). rewrite <- All. unfold tables_in. rewrite in_map_iff. split.
    - intros (r & <- & Ir). apply filter_In in Ir as [Ir E]. apply String.eqb_eq in E. apply (mt_only _ _ _ _ _ TO (""%string, it_name r) r eq_refl). split; [exact Ir|]. cbn. congruence.
    - intros [x X]. destruct (mt_objs _ _ _ _ _ TO (""%string, k) _ eq_refl X) as (tb & r & _ & (Ir & E) & _). cbn in E. injection E as E1 E2. exists r. split; [exact E2|]. apply filter_In. split; [exact Ir|]. rewrite E1. apply String.eqb_refl.
  Qed.
  Lemma listed_exactly m : In m mods -> exactly (mysql_ids (scope_of m) (listed D m)) created (scope_of m) /\ map local_id (mysql_ids (scope_of m) (listed D m)) = listed D m.
  Proof.
    intros Im. destruct V as (_ & _ & AN). destruct (AN m Im) as [N H].
    assert (A' : answers (in_namespace (scope_of m)) (table_names created) (listed D m)) by (split; [exact N|]; intros x; now rewrite H, tables_in_spec).
    split; [apply C33_mysql_isolated; [exact Clear|intros n E; exact (CM m n Im E)|exact A']|exact (C33_mysql_ids_name_the_tables _ _ _ A')].
  Qed.
  Notation ids := (flat_map (fun m => mysql_ids (scope_of m) (listed D m)) mods).
  Lemma ids_in q : In q ids <-> exists x, In x tabs /\ t_name x = q.
  Proof.
    rewrite in_flat_map. split.
    - intros (m & Im & Iq). destruct (proj2 (proj1 (listed_exactly m Im)) q) as [H _]. destruct (H Iq) as (i & -> & Ic). apply Mine. eauto.
    - intros (x & Ix & E). destruct (Shape x Ix) as (ns & i & En). rewrite E in En. subst q. destruct (proj2 (Mine ns i)) as (Ic & m & Im & Em); [eauto|]. exists m. split; [exact Im|]. apply (proj2 (proj1 (listed_exactly m Im))). rewrite Em. eauto.
  Qed.
  Lemma ids_nodup : List.NoDup (map local_id ids).
  Proof.
    assert (G : forall ms, List.NoDup ms -> (forall m, In m ms -> In m mods) -> List.NoDup (map local_id (flat_map (fun m => mysql_ids (scope_of m) (listed D m)) ms))).
    { induction ms as [|m ms IH]; intros N Sb; [constructor|]. inversion N; subst. cbn [flat_map]. rewrite map_app. apply nodup_list, NoDup_app. split; [|split].
      - apply nodup_list. rewrite (proj2 (listed_exactly m (Sb m (or_introl eq_refl)))). destruct V as (_ & _ & AN). apply (AN m (Sb m (or_introl eq_refl))).
      - intros k Ik Jk. apply elem_of_list_In, in_map_iff in Ik as (q & <- & Iq). apply elem_of_list_In, in_map_iff in Jk as (q' & E & Jq). apply in_flat_map in Jq as (m' & Im' & Jq).
        apply (proj2 (proj1 (listed_exactly m (Sb m (or_introl eq_refl))))) in Iq as (i & -> & Ic). apply (proj2 (proj1 (listed_exactly m' (Sb m' (or_intror Im'))))) in Jq as (i' & -> & Jc).
        destruct (flat_inj (scope_of m') i' (scope_of m) i) as [E1 _]; [apply clear_safe, Clear, Jc|apply clear_safe, Clear, Ic|exact E|]. apply scope_inj in E1. subst m'. contradiction.
      - apply nodup_list, IH; [assumption|]. intros x Ix. apply Sb. now right. }
    apply G; auto.
  Qed.
  Lemma my_one x : In x tabs -> exists x', my_table (view D) order mysql_literal current (t_name x) = Ok x' /\ t_key x' = t_key x /\ table_keyed x' /\ table_eqb x' x = true.
  Proof.
    intros Ix. destruct V as (K & TO & _). destruct (Shape x Ix) as (ns & i & En).
    assert (E : key_of (t_name x) = (""%string, local_id (t_name x))) by (rewrite En; reflexivity).
    assert (O : db_objs D !! key_of (t_name x) = Some (OTable (want_tab DMySQL x))) by (apply (proj2 Has (Ns "" [] [] tabs)); [now left|]; apply in_ns_objs; right; right; eauto).
    destruct (mt_objs _ _ _ _ _ TO (key_of (t_name x)) (OTable (want_tab DMySQL x))) as (tb & r & Eo & Ta & Cm & T); [rewrite E; reflexivity|exact O|]. injection Eo as <-.
    destruct (my_table_found deparse (view D) order current K AO KO x) with (r := r) as (x' & G & Nm & Ky & Q); auto.
    - rewrite En. reflexivity.
    - apply (nw_table _ _ (cw_ns _ _ W _ (or_introl eq_refl))). exact Ix.
    - exists x'. split; [exact G|]. split; [unfold t_key; now rewrite Nm|]. split; [exact Ky|exact Q].
  Qed.
  Lemma tabs_nodup : List.NoDup (map t_key tabs).
  Proof. destruct (ns_parts_nodup (Ns "" [] [] tabs)) as (_ & _ & N3); [apply nodup_list, (nw_keys _ _ (cw_ns _ _ W _ (or_introl eq_refl)))|exact N3]. Qed.
  Lemma all_tables : exists ts, map_res (my_table (view D) order mysql_literal current) ids = Ok ts /\ List.NoDup (map t_key ts) /\ (forall x, In x ts -> table_keyed x) /\ od_eqb t_key table_eqb ts tabs = true.
  Proof.
    set (get := fun k => match List.find (fun x => String.eqb (t_key x) k) tabs with Some x => my_table (view D) order mysql_literal current (t_name x) | None => Err "" end).
    assert (FD : forall x, In x tabs -> List.find (fun y => String.eqb (t_key y) (t_key x)) tabs = Some x).
    { intros x Ix. destruct (List.find _ tabs) as [y|] eqn:F.
      - apply find_some in F as [Iy E]. apply String.eqb_eq in E. f_equal. exact (keyed_eq t_key tabs y x tabs_nodup Iy Ix E).
      - exfalso. pose proof (find_none _ _ F x Ix) as Z. cbn in Z. rewrite String.eqb_refl in Z. discriminate. }
    destruct (collect t_key get table_keyed table_eqb (map local_id ids) (map local_id ids) tabs (Permutation_refl _) ids_nodup tabs_nodup) as (ts & E & N & Ky & Q & _).
    - intros k. rewrite in_map_iff. split.
      + intros (q & <- & Iq). apply ids_in in Iq as (x & Ix & <-). apply (in_map t_key) in Ix. exact Ix.
      + intros H. apply in_map_iff in H as (x & <- & Ix). exists (t_name x). split; [reflexivity|]. apply ids_in. eauto.
    - intros x Ix. unfold get. rewrite (FD x Ix). exact (my_one x Ix).
    - exists ts. split; [|auto]. rewrite <- E. symmetry. apply map_res_ext. intros q Iq. apply ids_in in Iq as (x & Ix & <-). unfold get. change (local_id (t_name x)) with (t_key x). now rewrite (FD x Ix).
  Qed.
  Lemma my_namespace_tables l ts : map_res (my_table (view D) order mysql_literal current) l = Ok ts -> List.NoDup (map t_key ts) -> my_namespace (view D) order mysql_literal current l = Ok (Ns "" [] [] ts).
  Proof. intros E N. unfold my_namespace. destruct l; [cbn in E; injection E as <-; reflexivity|]. rewrite E. cbn [bind]. now rewrite (make_id t_key ts N). Qed.
  Lemma discover_flat ms : forall acc ts, map_res (my_table (view D) order mysql_literal current) (flat_map (fun m => mysql_ids (scope_of m) (listed D m)) ms) = Ok ts -> List.NoDup (map t_key (acc ++ ts)) ->
    discover_into my_explorer D ms [Ns "" [] [] acc] = ([Ns "" [] [] (acc ++ ts)], true).
  Proof.
    induction ms as [|m ms IH]; intros acc ts E N; cbn [flat_map] in E.
    - cbn in E. injection E as <-. cbn. now rewrite app_nil_r.
    - apply map_res_app in E as (r1 & r2 & E1 & E2 & ->). cbn [discover_into]. unfold my_explorer at 1. assert (N' := N). rewrite !map_app in N'. apply nodup_list, NoDup_app in N' as (Na & _ & N'). apply NoDup_app in N' as (N1 & _ & N2). apply nodup_list in N1.
      rewrite (my_namespace_tables _ r1 E1 N1). assert (Z : merge_objs t_key table_eqb acc r1 = Ok (acc ++ r1)). { apply merge_fresh. rewrite app_assoc, map_app in N. apply nodup_list, NoDup_app in N as (N & _). now apply nodup_list. }
      assert (CMe : cat_merge [Ns "" [] [] acc] [Ns "" [] [] r1] = Ok [Ns "" [] [] (acc ++ r1)]). { cbn -[merge_objs]. unfold ns_merge. cbn -[merge_objs]. change (merge_objs e_key enum_eqb [] []) with (Ok (@nil enumt)). change (merge_objs s_key struct_eqb [] []) with (Ok (@nil structt)). cbn -[merge_objs]. rewrite Z. reflexivity. }
      rewrite CMe. rewrite (IH (acc ++ r1) r2 E2); [now rewrite <- app_assoc|]. now rewrite <- app_assoc.
  Qed.
  Lemma my_catalog_found : sees_at my_explorer mods t D.
  Proof.
    destruct all_tables as (ts & E & N & Ky & Q). exists [Ns "" [] [] ts]. split; [|split].
    - unfold discover. destruct mods as [|m ms]; [congruence|]. cbn [flat_map] in E. apply map_res_app in E as (r1 & r2 & E1 & E2 & ->). cbn [discover_into]. unfold my_explorer at 1.
      assert (N' := N). rewrite map_app in N'. apply nodup_list, NoDup_app in N' as (N1 & _ & _). apply nodup_list in N1. rewrite (my_namespace_tables _ r1 E1 N1). cbn [cat_merge od_get]. cbn.
      apply (discover_flat ms r1 r2 E2 N).
    - constructor; [cbn; repeat constructor; intros []|]. intros n [<-|[]]. constructor; cbn [n_enums n_structs n_tables]; [constructor|constructor|exact N|intros x []|exact Ky].
    - unfold cat_eqb, od_eqb. cbn. unfold ns_eqb. cbn. rewrite Q. reflexivity.
  Qed.
End MyDiscover.
