(** C58 (Oracle): discovery reads back what was created. *)
From Verif Require Import PyStr QuoteModel QuoteSpec ObjectDict Types Objects SqlAst Ddl Mutate DbSpec CatSpec MutSpec RefSpec KeySpec ExCat IsExplore PropsDiscover Flat FlatSpec PropsFlat Session SessionSpec SessionProofs IsCatSpec IsProofs1 IsSeenSpec ExInfo PropsInfo OrExplore OrCatSpec.
From Verif Require IsCatSpec DiscoverSpec CatProofs5 CatProofs4 TabProofs1 CatProofs3 Factory Discover.
From Verif Require Import PgProofs1 PgProofs3 IsProofs3 OrProofs1 OrProofs2 HushSpec HushProofs HushSync ExOra.
From Coq Require Import List String Sorted Permutation Lia.
From stdpp Require Import gmap strings.
Open Scope string_scope.
Open Scope list_scope.

(** A table that is in the database as declared is read back equal to the declaration: all tables belong to [user], and no other
    user has one of that name.  [w]: the bytes that the server counts for a character. *)
Theorem C58_table : forall deparse w V order user D t,
  any_order order -> keys_ok V -> or_tells deparse w V user D ->
  scope_id (t_name t) = None -> tab_wf DOracle t -> or_tab_seen deparse (hush_tab t) ->
  db_objs D !! key_of (t_name t) = Some (OTable (want_tab DOracle t)) ->
  exists t', or_table V order (t_name t) = Ok t' /\ t_name t' = t_name t /\ table_keyed t' /\ table_eqb t' (hush_tab t) = true.
Proof.
  intros deparse w V order user D t AO K TO Sc W S H. assert (Ek : key_of (t_name t) = ("", local_id (t_name t))) by (unfold key_of; now rewrite Sc). rewrite Ek in H.
  destruct (ot_objs _ _ _ _ _ TO _ _ H) as (tb & E & Ta & Al & T). injection E as <-. rewrite <- (hush_want DOracle (or_intror eq_refl)) in T, Ta.
  destruct (or_table_found deparse w V user order K AO (hush_tab t)) as (t' & G & Nm & Ky & Q); auto; [now apply hush_tab_wf|]. exists t'. auto.
Qed.
Print Assumptions C58_table.

(** Discovery of several modules gives a catalog that equals the one that was created.  The user owns the tables [created], each
    under a namespace or under none, with names free of doubt (C33) and without a dollar sign; those of the modules are the tables
    of the catalog. *)
Theorem C58_discover : forall deparse w order user view listed D mods tabs created,
  any_order order -> cat_wf DOracle [Ns "" [] [] tabs] -> (forall x, In x tabs -> or_tab_seen deparse (hush_tab x)) ->
  has_cat DOracle [Ns "" [] [] tabs] D ->
  (forall k, is_Some (db_objs D !! ("", k)) <-> In k (table_names created)) -> (forall q, In q created -> clear_id q) ->
  (forall k, In k (table_names created) -> oracle_visible k) ->
  (forall m n, In m mods -> scope_of m = Some n -> clean n) ->
  (forall ns i, (In (ns, i) created /\ exists m, In m mods /\ scope_of m = ns) <-> exists x, In x tabs /\ t_name x = Prefixed ns i) ->
  (forall x, In x tabs -> exists ns i, t_name x = Prefixed ns i) -> List.NoDup mods -> mods <> [] ->
  or_reports deparse w user view listed D mods ->
  exists c, discover (or_explorer order view listed) D mods = (c, true) /\ cat_keyed c /\ cat_eqb c (hush [Ns "" [] [] tabs]) = true.
Proof.
  intros deparse w order user view listed D mods tabs created AO W S Has All Clear Vis CM Mine Shape NM SM V.
  apply (or_catalog_found deparse w user order view listed AO (map hush_tab tabs) D mods created); auto.
  - exact (hush_wf DOracle _ W).
  - intros x Ix. apply in_map_iff in Ix as (y & <- & Iy). exact (S y Iy).
  - exact (hush_has DOracle (or_intror eq_refl) _ D Has).
  - intros ns i. rewrite Mine. split; intros (x & Ix & E).
    + exists (hush_tab x). split; [now apply in_map|exact E].
    + apply in_map_iff in Ix as (y & <- & Iy). eauto.
  - intros x Ix. apply in_map_iff in Ix as (y & <- & Iy). exact (Shape y Iy).
Qed.
Print Assumptions C58_discover.

(** Synchronize, then synchronize again with the same classes: the second call executes nothing. *)
Theorem C58_synchronize_twice : forall deparse wb order user view listed o mods tabs w w' l s F,
  let t := [Ns "" [] [] tabs] in let X := or_explorer order view listed in
  any_order order -> CatProofs5.drops_all o ->
  cat_wf DOracle t -> cat_wf DOracle s -> step_ok DOracle s t -> apart s F -> apart t F ->
  (forall x, In x tabs -> or_tab_seen deparse (hush_tab x)) ->
  (forall x, In x tabs -> exists m i, In m mods /\ t_name x = Prefixed (scope_of m) i /\ clear_id (scope_of m, i) /\ oracle_visible (local_id (t_name x))) ->
  (forall m n, In m mods -> scope_of m = Some n -> clean n) -> List.NoDup mods -> mods <> [] ->
  w_db w = plus_cat DOracle s F -> discover X (w_db w) mods = (s, true) ->
  synchronize DOracle o (engine_of DOracle) X None mods (Ok t) w = (w', true, l) ->
  or_reports deparse wb user view listed (w_db w') mods ->
  exists st, synchronize DOracle o (engine_of DOracle) X None mods (Ok t) w' = (World st (w_db w'), true, []).
Proof.
  intros deparse wb order user view listed o mods tabs w w' l s F t X AO Ho Wt Ws [C HP] As At S Sh CM NM SM Ew Hd H V.
  destruct (synchronize_reaches DOracle o X mods t w w' l s F Ho Wt Ws C HP As At Ew Hd H) as [E _].
  assert (Has : has_cat DOracle t (w_db w')) by (rewrite E; now apply plus_has).
  apply synchronize_again_hushed; [now right|exact Wt| |].
  - set (part := fun q => match q with Prefixed ns i => (ns, i) | _ => (None, "") end).
    assert (Pa : forall x, In x tabs -> t_name x = Prefixed (fst (part (t_name x))) (snd (part (t_name x))) /\ clear_id (part (t_name x)) /\ oracle_visible (local_id (t_name x)) /\ exists m, In m mods /\ scope_of m = fst (part (t_name x))).
    { intros x Ix. destruct (Sh x Ix) as (m & i & Im & En & Cl & Vi). rewrite En in Vi |- *. cbn. split; [reflexivity|]. split; [exact Cl|]. split; [exact Vi|]. eauto. }
    apply (C58_discover deparse wb order user view listed (w_db w') mods tabs (map (fun x => part (t_name x)) tabs)); auto.
    + intros k. unfold table_names. rewrite map_map. rewrite in_map_iff. split.
      * intros [o' Ho']. rewrite E in Ho'. destruct (in_dec (fun a b => decide (a = b)) ("", k) (cat_keys t)) as [J|J].
        -- apply CatProofs3.in_cat_keys in J as (n & [<-|[]] & J). cbn in J. rewrite map_map in J. apply in_map_iff in J as (x & Ek & Ix). exists x. split; [|exact Ix]. destruct (Pa x Ix) as (En & _). rewrite <- En. injection Ek as _ Ek. exact Ek.
        -- rewrite plus_lookup_out in Ho' by assumption. exfalso. apply (ap_objs _ _ At ("", k) o' Ho'). now left.
      * intros (x & <- & Ix). destruct (Pa x Ix) as (En & _). rewrite <- En. exists (OTable (want_tab DOracle x)).
        assert (J : In (key_of (t_name x), OTable (want_tab DOracle x)) (ns_objs DOracle (Ns "" [] [] tabs))) by (apply CatProofs3.in_ns_objs; right; right; eauto).
        pose proof (proj2 Has (Ns "" [] [] tabs) _ _ (or_introl eq_refl) J) as Q. rewrite En in Q at 1. rewrite En. exact Q.
    + intros q Iq. apply in_map_iff in Iq as (x & <- & Ix). apply (Pa x Ix).
    + intros k Ik. unfold table_names in Ik. rewrite map_map in Ik. apply in_map_iff in Ik as (x & <- & Ix). destruct (Pa x Ix) as (En & _ & Vi & _). now rewrite <- En.
    + intros ns i. split.
      * intros [Ic _]. apply in_map_iff in Ic as (x & Ex & Ix). exists x. split; [exact Ix|]. destruct (Pa x Ix) as (En & _). rewrite Ex in En. exact En.
      * intros (x & Ix & En). destruct (Pa x Ix) as (_ & _ & _ & m & Im & Em). rewrite En in Em. split; [|exists m; auto]. apply in_map_iff. exists x. rewrite En. auto.
    + intros x Ix. destruct (Pa x Ix) as (En & _). eauto.
  - unfold synchronize in H. destruct (gen_create DOracle o [] (Ok t)) as [t' [l0|]] eqn:G; [exists t', l0; exact G|discriminate H].
Qed.
Print Assumptions C58_synchronize_twice.

(** ** Instances *)
Lemma o_step : step_ok DOracle nothing o_cat.
Proof. nostep. intros a b Ia Ib E. cases. constructor; intros; cases. Qed.
(** the first call creates everything, the second does nothing *)
Example C58_example_twice : exists w' l st,
  synchronize DOracle default_options (engine_of DOracle) o_explorer None ["shop"] (Ok o_cat) (World [] empty_db) = (w', true, l) /\ List.length l = 4 /\
  synchronize DOracle default_options (engine_of DOracle) o_explorer None ["shop"] (Ok o_cat) w' = (World st (w_db w'), true, []).
Proof.
  assert (Nf : discover o_explorer empty_db ["shop"] = (nothing, true)) by (vm_compute; reflexivity).
  destruct (first_time DOracle o_explorer o_cat "shop" 3) as (l & S1 & L); [exact o_wf|exact o_step|exact Nf|vm_compute; reflexivity|eexists; vm_compute; reflexivity|]. rewrite o_plus in S1.
  destruct (C58_synchronize_twice plain_deparse 4%Z stored "APP" o_view o_listed default_options ["shop"] o_tabs (World [] empty_db) (World (sorted_or_same o_cat) o_db) l nothing empty_db
    stored_any) with (1 := conj eq_refl (conj eq_refl (conj eq_refl eq_refl)) : CatProofs5.drops_all default_options) (14 := S1) as [st S2]; try exact (empty_apart _).
  - exact o_wf.
  - exact (nothing_wf _).
  - exact o_step.
  - exact o_seen.
  - intros x Ix. exists "shop". cases; eexists; (split; [cbn; auto|]); (split; [reflexivity|]); (split; [split; [intros (a & b & Z); destruct a as [|? [|? [|? [|? [|? ?]]]]]; discriminate Z|intros (a & Z); destruct a as [|? [|? [|? [|? [|? ?]]]]]; discriminate Z]|vm_compute; reflexivity]).
  - intros m n Im E. cases. injection E as <-. split; [intros (a & b & Z); destruct a as [|? [|? [|? [|? [|? ?]]]]]; discriminate Z|intros (a & Z); destruct a as [|? [|? [|? [|? [|? ?]]]]]; discriminate Z].
  - listdup.
  - discriminate.
  - exact (nothing_empty _).
  - exact Nf.
  - exact o_reports.
  - exists (World (sorted_or_same o_cat) o_db), l, st. split; [exact S1|]. split; [exact L|exact S2].
Qed.
Example C58_example_table : exists t, or_table o_dict stored (shp "person") = Ok t /\ table_eqb t (hush_tab o_person) = true /\ table_keyed t.
Proof.
  destruct (C58_table plain_deparse 4%Z o_dict stored "APP" o_db o_person stored_any o_keys o_tells) as (t' & G & _ & Ky & Q); [reflexivity| | | |exists t'; auto].
  - apply (nw_table _ _ (cw_ns _ _ o_wf _ (or_introl eq_refl))). now left.
  - apply o_seen. now left.
  - apply o_has. now left.
Qed.

(** ** What discovery does not read back *)
(** A table that does not exist is read as a table without columns instead of an error. *)
Theorem C58_missing_table_refuted : forall V order q, any_order order ->
  (forall r, In r (dba_tables V) -> ot_name r <> local_id q) -> (forall r, In r (dba_tab_columns V) -> ol_table r <> local_id q) -> (forall r, In r (dba_constraints V) -> on_table r <> local_id q) ->
  or_table V order q = Ok (Tab q [] [] [] None None).
Proof.
  intros V order q AO NT NC NK.
  assert (Nm : forall t, t <> local_id q -> named q t = false). { intros t Ne. unfold named. rewrite is_literal_quote. now apply String.eqb_neq. }
  assert (Em : forall A (l : list A), l = [] -> forall n, order A n l = []). { intros A l -> n. apply Permutation_nil. symmetry. apply AO. }
  assert (FE : forall A B (f : A -> list B) l, (forall x, In x l -> f x = []) -> flat_map f l = []). { intros A B f. induction l as [|x l IH]; intros Hf; [reflexivity|]. cbn. rewrite Hf, IH; [reflexivity| |now left]. intros y Iy. apply Hf. now right. }
  assert (E1 : q_ocols V q = []). { unfold q_ocols. apply FE. intros r Ir. apply FE. intros c _. rewrite (Nm _ (NC r Ir)). destruct (_ && _ && _)%bool; reflexivity. }
  assert (E2 : q_ocons V q = []). { unfold q_ocons. apply FE. intros r Ir. apply FE. intros c _. destruct (_ && _)%bool; [|reflexivity]. apply FE. intros x _. apply FE. intros y _. now rewrite (Nm _ (NK r Ir)). }
  assert (E3 : q_comments V q = []). { unfold q_comments. apply FE. intros r Ir. apply FE. intros c _. rewrite (Nm _ (NT r Ir)). destruct (_ && _)%bool; reflexivity. }
  unfold or_table, cons_rows. rewrite (Em _ _ E1), (Em _ _ E2), (Em _ _ E3). reflexivity.
Qed.
Print Assumptions C58_missing_table_refuted.
Example C58_missing_table_example : or_table o_dict stored (shp "nobody") = Ok (Tab (shp "nobody") [] [] [] None None).
Proof. apply C58_missing_table_refuted; [exact stored_any| | |]; intros r Ir; cases; discriminate. Qed.

(** A table without a tablespace of its own (partitioned, temporary, index-organized) is not seen: its module is empty. *)
Theorem C58_no_tablespace_refuted : forall V k, (forall r, In r (dba_tables V) -> ot_name r = k -> ot_space r = None) -> ~ In k (candidates V).
Proof.
  intros V k H J. unfold candidates in J. apply in_map_iff in J as (r & E & Ir). apply filter_In in Ir as [Ir L]. unfold listed_table in L. rewrite (H r Ir E), !andb_false_r in L. discriminate L.
Qed.
Print Assumptions C58_no_tablespace_refuted.
(** ... so the next call tries to create it once more. *)
Definition part_dict : dictionary := Dict [OTab "APP" "shop__log" None true] [OTCom "APP" "shop__log" None]
  [ora_num "shop__log" "id" 1 None "NO"] [OCCom "APP" "shop__log" "id" None] [OCon "APP" "pk_log" "P" "shop__log" None] [OConCol "APP" "pk_log" "id" 1].
Definition o_log := Tab (shp "log") [col "id" onum] ["id"] [] None None.
Example C58_no_tablespace_example_refuted : exists s l,
  discover (or_explorer stored (fun _ => part_dict) (fun _ _ => candidates part_dict)) empty_db ["shop"] = (s, true) /\ s = nothing /\
  snd (gen_mutate DOracle default_options s [Ns "" [] [] [o_log]]) = Ok l /\ l <> [].
Proof. eexists _, _. split; [vm_compute; reflexivity|]. split; [reflexivity|]. split; [vm_compute; reflexivity|]. discriminate. Qed.

(** The owner plays no role: if another user has a table of the same name, the columns of both are put together. *)
Definition two_dict : dictionary := Dict [OTab "APP" "shop__log" (Some "USERS") true; OTab "HR" "shop__log" (Some "USERS") true] [OTCom "APP" "shop__log" None; OTCom "HR" "shop__log" None]
  [ora_num "shop__log" "id" 1 None "NO"; OCol "HR" "shop__log" "salary" 1 "NUMBER" None 22 None None "Y" None 0 "NO"] [OCCom "APP" "shop__log" "id" None; OCCom "HR" "shop__log" "salary" None]
  [OCon "APP" "pk_log" "P" "shop__log" None; OCon "HR" "uq_salary" "U" "shop__log" None] [OConCol "APP" "pk_log" "id" 1; OConCol "HR" "uq_salary" "salary" 1].
Example C58_other_user_refuted : exists t, or_table two_dict stored (shp "log") = Ok t /\ table_eqb t o_log = false /\ map c_name (t_columns t) = ["id"; "salary"] /\ t_constraints t = [CUnique "uq_salary" ["salary"]].
Proof. eexists. split; [vm_compute; reflexivity|]. split; [vm_compute; reflexivity|]. split; reflexivity. Qed.
(** If the names of columns agree as well, the primary key names the column twice. *)
Definition same_dict : dictionary := Dict [OTab "APP" "shop__log" (Some "USERS") true; OTab "HR" "shop__log" (Some "USERS") true] [OTCom "APP" "shop__log" None; OTCom "HR" "shop__log" None]
  [ora_num "shop__log" "id" 1 None "NO"; OCol "HR" "shop__log" "id" 1 "CLOB" None 4000 None None "Y" None 0 "NO"] [OCCom "APP" "shop__log" "id" None; OCCom "HR" "shop__log" "id" None]
  [OCon "APP" "pk_log" "P" "shop__log" None; OCon "HR" "pk_log" "P" "shop__log" None] [OConCol "APP" "pk_log" "id" 1; OConCol "HR" "pk_log" "id" 1].
Example C58_other_user_key_refuted : exists t, or_table same_dict stored (shp "log") = Ok t /\ t_pk t = ["id"; "id"].
Proof. eexists. split; vm_compute; reflexivity. Qed.
(** A table of another user in the same namespace is taken for one of the catalog; the next call drops it. *)
Definition guest_dict : dictionary := Dict [OTab "HR" "shop__salary" (Some "USERS") true] [OTCom "HR" "shop__salary" None]
  [OCol "HR" "shop__salary" "id" 1 "NUMBER" None 22 None None "N" None 0 "NO"] [OCCom "HR" "shop__salary" "id" None] [] [].
Example C58_other_table_refuted : exists s l,
  discover (or_explorer stored (fun _ => guest_dict) (fun _ _ => candidates guest_dict)) empty_db ["shop"] = (s, true) /\
  map (fun n => map t_name (n_tables n)) s = [[shp "salary"]] /\
  snd (gen_mutate DOracle default_options s nothing) = Ok l /\ In (SDropTable (shp "salary")) l.
Proof. eexists _, _. split; [vm_compute; reflexivity|]. split; [reflexivity|]. split; [vm_compute; reflexivity|]. cbn. auto. Qed.

(** A foreign key of two columns is read back with all pairs of columns. *)
Definition line_dict : dictionary := Dict [] [] []  []
  [OCon "APP" "pk_line" "P" "shop__line" None; OCon "APP" "fk_line" "R" "shop__note" (Some ("APP", "pk_line"))]
  [OConCol "APP" "pk_line" "order" 1; OConCol "APP" "pk_line" "nr" 2; OConCol "APP" "fk_line" "o" 1; OConCol "APP" "fk_line" "l" 2].
Example C58_composite_key_refuted : exists t, or_table line_dict stored (shp "note") = Ok t /\
  t_constraints t = [CForeign "fk_line" ["o"; "o"; "l"; "l"] (shp "line") ["order"; "nr"; "order"; "nr"]].
Proof. eexists. split; [vm_compute; reflexivity|]. reflexivity. Qed.
