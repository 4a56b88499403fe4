(** C53 (PostgreSQL): discovery reads back what was created. *)
From Verif Require Import PyStr QuoteModel QuoteSpec ObjectDict Types Objects SqlAst Ddl Mutate DbSpec CatSpec MutSpec RefSpec KeySpec ExCat PgExplore PgCatSpec PropsDiscover ExploreSpec Session SessionSpec SessionProofs.
From Verif Require DiscoverSpec PropsSession CatProofs5 CatProofs4 TabProofs1.
From Verif Require Import PgProofs1 PgProofs2 PgProofs3 PgProofs4 PgProofs5 PgProofs6 PgProofs7.
From Coq Require Import List String Sorted Permutation Lia.
From stdpp Require Import gmap strings.
Open Scope string_scope.
Open Scope list_scope.

(** A table that is in the database as declared is read back equal to the declaration. *)
Theorem C53_postgresql_table : forall show deparse P order D t s n,
  DiscoverSpec.show_ok show -> any_order order -> keys_in_order order -> keys_ok P -> oids_apart P -> tells_of show deparse P D ->
  s ∈ db_schemas D -> t_name t = Qualified (Some s) n -> tab_wf DPg t -> tab_seen deparse t ->
  db_objs D !! (s, n) = Some (OTable (want_tab DPg t)) ->
  exists t', get_table P order (t_name t) = Ok t' /\ table_keyed t' /\ table_eqb t' t = true.
Proof.
  intros show deparse P order D t s n SH AO KO K OA TO Sch Nm W S H. destruct (to_objs _ _ _ _ TO _ _ H Sch) as (c & R & T).
  rewrite Nm. destruct (table_found show deparse P order K OA AO KO SH s n c R t W S T Nm) as (t' & E & _ & Ky & Q). eauto.
Qed.
Print Assumptions C53_postgresql_table.

(** A schema that contains the objects of a namespace, and nothing else, is read back equal to the namespace. *)
Theorem C53_postgresql_namespace : forall show deparse P order D n,
  DiscoverSpec.show_ok show -> any_order order -> keys_in_order order -> keys_ok P -> oids_apart P -> tells_of show deparse P D -> labels_kept P n ->
  ns_wf DPg n -> ns_seen deparse n -> n_name n ∈ db_schemas D ->
  (forall k x, In (k, x) (ns_objs DPg n) -> db_objs D !! k = Some x) ->
  (forall k x, db_objs D !! k = Some x -> fst k = n_name n -> In k (map key_of (ns_names n))) ->
  exists n', get_namespace P order (n_name n) = Ok n' /\ n_name n' = n_name n /\ ns_keyed n' /\ ns_eqb n' n = true.
Proof.
  intros show deparse P order D n SH AO KO K OA TO Lab W S Sch Has Only.
  exact (namespace_found show deparse P order K OA AO KO SH D n W S TO Sch Has Only Lab).
Qed.
Print Assumptions C53_postgresql_namespace.

(** Discovery of several modules gives a catalog that equals the one that was created. *)
Theorem C53_postgresql_discover : forall show deparse order current view t D mods,
  DiscoverSpec.show_ok show -> any_order order -> keys_in_order order -> cat_wf DPg t -> (forall n, In n t -> ns_seen deparse n) ->
  Permutation mods (map n_name t) -> has_cat DPg t D -> (forall k x, db_objs D !! k = Some x -> In (fst k) mods -> In k (cat_keys t)) ->
  reports show deparse (view D) D t ->
  exists c, discover (pg_explorer order current view) D mods = (c, true) /\ cat_keyed c /\ cat_eqb c t = true.
Proof. intros show deparse order current view t D mods SH AO KO W S Pm Has Only V. exact (catalog_found show deparse order current view AO KO SH t D mods W S Pm Has Only V). Qed.
Print Assumptions C53_postgresql_discover.

(** Synchronize, then synchronize again with the same classes: the second call executes nothing.  Unlike in C22 the
    explorer is the one of the code, reading the system catalogs of the server. *)
Theorem C53_postgresql_synchronize_twice : forall show deparse order current view o mods t w w' l s F,
  DiscoverSpec.show_ok show -> any_order order -> keys_in_order order -> CatProofs5.drops_all o ->
  cat_wf DPg t -> cat_wf DPg s -> step_ok DPg s t -> apart s F -> apart t F ->
  (forall n, In n t -> ns_seen deparse n) -> Permutation mods (map n_name t) ->
  let X := pg_explorer order current view in
  w_db w = plus_cat DPg s F -> discover X (w_db w) mods = (s, true) ->
  synchronize DPg o (engine_of DPg) X None mods (Ok t) w = (w', true, l) ->
  reports show deparse (view (w_db w')) (w_db w') t ->
  exists st, synchronize DPg o (engine_of DPg) X None mods (Ok t) w' = (World st (w_db w'), true, []).
Proof.
  intros show deparse order current view o mods t w w' l s F SH AO KO Ho Wt Ws [C HP] As At S Pm X Ew Hd H V.
  destruct (synchronize_reaches DPg o X mods t w w' l s F Ho Wt Ws C HP As At Ew Hd H) as [E _].
  apply synchronize_again_at; [exact Wt| |discriminate|].
  - apply (catalog_found show deparse order current view AO KO SH t (w_db w') mods Wt S Pm).
    + rewrite E. now apply plus_has.
    + intros k x Hk Im. rewrite E in Hk. destruct (in_dec (fun a b => decide (a = b)) k (cat_keys t)) as [I|I]; [exact I|]. rewrite plus_lookup_out in Hk by assumption.
      exfalso. apply (ap_objs _ _ At k x Hk). now apply (Permutation_in _ Pm).
    + exact V.
  - unfold synchronize in H. destruct (gen_create DPg o [] (Ok t)) as [t' [l0|]]; [eauto|discriminate].
Qed.
Print Assumptions C53_postgresql_synchronize_twice.

(** A default that is a point in time comes back as the literal that it was given as. *)
Theorem C53_timestamp_default : forall y m d h mi s, in_calendar y m d -> in_day h mi s ->
  to_default_expr (Some (quote (stamp y m d h mi s) ++ "::timestamp without time zone")%string) = Ok (Some (quote (stamp y m d h mi s))).
Proof. exact stamp_default. Qed.
Print Assumptions C53_timestamp_default.

(** [has_table] and [has_column] tell what is in the database. *)
Theorem C53_has_table : forall show deparse P D s n, keys_ok P -> tells_of show deparse P D -> s ∈ db_schemas D ->
  (has_table P (Qualified (Some s) n) = true <-> exists tb, db_objs D !! (s, n) = Some (OTable tb)).
Proof. intros show deparse P D s n K TO Sch. exact (has_table_spec show deparse P D K TO s n Sch). Qed.
Print Assumptions C53_has_table.
Theorem C53_has_column : forall show deparse P D s n tb k, keys_ok P -> tells_of show deparse P D -> s ∈ db_schemas D ->
  db_objs D !! (s, n) = Some (OTable tb) -> (forall a, In a (pg_attribute P) -> attname a = k -> (0 < attnum a)%Z /\ atttypid a <> 0%N) ->
  (has_column P (Qualified (Some s) n) k = true <-> is_Some (dt_cols tb !! k)).
Proof. intros show deparse P D s n tb k K TO Sch H Or. exact (has_column_spec show deparse P D K TO s n Sch tb k H Or). Qed.
Print Assumptions C53_has_column.

(** ** Instance *)
Definition ex_show (ns : option string) (name : string) : string := String DQ (name ++ String DQ "").
Definition ex_deparse (ty : sqltype) (e : string) : string := match ty with TTimestamp _ _ => e ++ "::timestamp without time zone" | _ => e end.
Definition x_color := Enum (shop "color") ["red"; "green"].
Definition x_point := Struct (shop "point") [Mem "x" TDouble None; Mem "y" TDouble None] (Some "a place").
Definition x_person := Tab (shop "person")
  [Col "id" int4 false None true None; Col "name" (TVarChar (Some 64%Z)) false None false (Some "full name");
   ncol "favourite" (TUser (shop "color")); Col "created" (TTimestamp None false) false (Some "'2020-02-29 12:00:00'") false None]
  ["id"] [CUnique "uq_name" ["name"]] (Some "people") None.
Definition x_order := Tab (shop "order") [col "id" int4; col "buyer" int4] ["id"] [CForeign "fk_buyer" ["buyer"] (shop "person") ["id"]] None None.
Definition x_cat : catalog := [Ns "shop" [x_color] [x_point] [x_person; x_order]].
Definition x_pg : pgcat := {|
  pg_namespace := [Nsp 11 "pg_catalog"; Nsp 2200 "public"; Nsp 5000 "shop"];
  pg_class := [Cls 7001 "person" 5000 "r"; Cls 7002 "order" 5000 "r"; Cls 7003 "point" 5000 "c"; Cls 7004 "person_pkey" 5000 "i"; Cls 7005 "uq_name" 5000 "i"; Cls 7006 "order_pkey" 5000 "i"; Cls 1259 "pg_class" 11 "r"];
  pg_attribute :=
    [Att 7001 "ctid" 27 "tid" (-1) 0 true ""; Att 7001 "id" 23 "integer" 1 0 true "a"; Att 7001 "created" 1114 "timestamp without time zone" 5 0 true ""; Att 7001 "........pg.dropped.3........" 0 "-" 3 0 false "";
     Att 7001 "favourite" 6001 """color""" 4 0 false ""; Att 7001 "name" 1043 "character varying(64)" 2 0 true "";
     Att 7002 "id" 23 "integer" 1 0 true ""; Att 7002 "buyer" 23 "integer" 2 0 true "";
     Att 7003 "x" 701 "double precision" 1 0 false ""; Att 7003 "y" 701 "double precision" 2 0 false ""];
  pg_type := [Typ 23 "int4" 11 0; Typ 27 "tid" 11 0; Typ 701 "float8" 11 0; Typ 1043 "varchar" 11 0; Typ 1114 "timestamp" 11 0;
     Typ 6001 "color" 5000 0; Typ 6002 "_color" 5000 6001; Typ 6003 "point" 5000 0; Typ 6004 "person" 5000 0; Typ 6005 "order" 5000 0];
  pg_attrdef := [Def 7001 5 "'2020-02-29 12:00:00'::timestamp without time zone"];
  pg_description := [Dsc 7001 InClass 0 "people"; Dsc 7001 InClass 2 "full name"; Dsc 6003 InType 0 "a place"];
  pg_constraint := [Con "p" "person_pkey" 7001 [1%Z] 0 []; Con "u" "uq_name" 7001 [2%Z] 0 []; Con "p" "order_pkey" 7002 [1%Z] 0 []; Con "f" "fk_buyer" 7002 [2%Z] 7001 [1%Z]];
  pg_enum := [Enm 6001 "green" 2; Enm 6001 "red" 1] |}.
Definition x_db : db := Db {["shop"]} (cat_objs DPg x_cat).

Ltac listdup := repeat (constructor; [cbn; intuition discriminate|]); constructor.
Lemma x_keys : keys_ok x_pg.
Proof. constructor; try (cbn; listdup); intros d I; cases; cbn; (discriminate || reflexivity || (intros Z; destruct Z; reflexivity) || idtac). Qed.
Lemma x_oids : oids_apart x_pg.
Proof. intros d I Z. cases; cbn in *; try discriminate; split; intros J; cbn in J; intuition (discriminate || reflexivity). Qed.
Lemma x_show : DiscoverSpec.show_ok ex_show.
Proof. intros ns name. left. unfold ex_show. eauto. Qed.
Lemma x_wf : cat_wf DPg x_cat.
Proof. constructor; [simpl; nodup|]. intros n Hn. cases; nswf. Qed.
Lemma x_color_faithful : pg_faithful (TUser (shop "color")).
Proof.
  apply pg_user. exists "shop", "color". split; [reflexivity|]. split; [discriminate|]. split; [discriminate|]. intros b I E. vm_compute in E. subst b. cbn in I. intuition discriminate.
Qed.
Lemma x_int4 : pg_faithful int4.
Proof. apply pg_plain, (pg_ints 4). cbn. auto. Qed.
Lemma x_seen : forall n, In n x_cat -> ns_seen ex_deparse n.
Proof.
  intros n I. cases. constructor.
  - discriminate.
  - discriminate.
  - intros q Hq. cases; reflexivity.
  - intros e He. cases. discriminate.
  - intros x Hx. cases. constructor; [|discriminate]. intros m Hm. cases; cbn; (split; [apply pg_plain, pg_double|]; split; [discriminate|reflexivity]).
  - intros x Hx. cases.
    + constructor; [reflexivity| | |discriminate].
      * intros c Hc. cases; (constructor; [|intros e E; try discriminate E; injection E as <-; vm_compute; reflexivity|discriminate]).
        -- exact x_int4.
        -- apply pg_varchar. lia.
        -- exact x_color_faithful.
        -- apply pg_plain, pg_timestamp.
      * intros k Hk. cases. discriminate.
    + constructor; [reflexivity| | |discriminate].
      * intros c Hc. cases; (constructor; [exact x_int4|intros e E; discriminate E|discriminate]).
      * intros k Hk. cases. split; [discriminate|]. split; [reflexivity|]. exists "shop", "person". reflexivity.
Qed.
Lemma x_lookup k x : db_objs x_db !! k = Some x -> In (k, x) (ns_objs DPg (Ns "shop" [x_color] [x_point] [x_person; x_order])).
Proof. intros H. unfold x_db, cat_objs in H. cbn [db_objs] in H. apply elem_of_list_to_map_2, elem_of_list_In in H. rewrite <- app_nil_r. exact H. Qed.

Lemma x_has k x : In (k, x) (ns_objs DPg (Ns "shop" [x_color] [x_point] [x_person; x_order])) -> db_objs x_db !! k = Some x.
Proof.
  intros H. unfold x_db, cat_objs. cbn [db_objs]. apply elem_of_list_to_map_1; [cbn; nodup|]. apply elem_of_list_In. rewrite <- app_nil_r in H. exact H.
Qed.
Ltac typed ty fmt t := exists ty, fmt, t; split; [reflexivity|]; split; [vm_compute; reflexivity|]; split; [split; [cbn; auto 20|]; split; [cbn; auto 20|cbn; auto]|]; split; [reflexivity|]; split; [reflexivity|]; cbn; intuition discriminate.
Ltac liverow := split; [cbn; auto 20|]; split; [reflexivity|]; split; [reflexivity|discriminate].
Ltac splits := repeat match goal with H : _ \/ _ |- _ => destruct H | H : False |- _ => destruct H end.
Ltac comment := let x := fresh in intros x; cbn; split; [intros ?; splits; (discriminate || congruence)|let H := fresh in intros H; try discriminate H; injection H as <-; auto].
Ltac nodefault := let e := fresh in intros e; cbn; split; [let I := fresh in intros I; splits; discriminate|intros (? & ? & Z & _); discriminate Z].
Lemma x_tells : tells_of ex_show ex_deparse x_pg x_db.
Proof.
  assert (Per : relation_at x_pg ("shop", "person") "r" (Cls 7001 "person" 5000 "r")) by (repeat split; cbn; auto).
  assert (Ord : relation_at x_pg ("shop", "order") "r" (Cls 7002 "order" 5000 "r")) by (repeat split; cbn; auto).
  assert (Poi : relation_at x_pg ("shop", "point") "c" (Cls 7003 "point" 5000 "c")) by (repeat split; cbn; auto).
  constructor.
  - intros k x H _. apply x_lookup in H. cases.
    + exists (Typ 6001 "color" 5000 0), ["red"; "green"]. split; [repeat split; cbn; auto 20|]. split; [|reflexivity].
      exists [Enm 6001 "red" 1; Enm 6001 "green" 2]. split; [apply perm_swap|]. split; [|reflexivity]. repeat constructor.
    + exists (Cls 7003 "point" 5000 "c"), (Typ 6003 "point" 5000 0). split; [exact Poi|]. split; [repeat split; cbn; auto 20|]. split; [|cbn; comment].
      constructor.
      * intros n ty X. apply want_members_some in X as (m & Im & <- & ->). cases.
        -- exists (Att 7003 "x" 701 "double precision" 1 0 false ""). split; [liverow|]. split; [reflexivity|]. split; [|cbn; comment]. typed "double precision" (DiscoverSpec.PgReport "float8" "pg_catalog" "double precision" false) (Typ 701 "float8" 11 0).
        -- exists (Att 7003 "y" 701 "double precision" 2 0 false ""). split; [liverow|]. split; [reflexivity|]. split; [|cbn; comment]. typed "double precision" (DiscoverSpec.PgReport "float8" "pg_catalog" "double precision" false) (Typ 701 "float8" 11 0).
      * intros a (Ia & E & _ & _). cases; try discriminate E; (eexists; vm_compute; reflexivity).
      * intros a b (Ia & E & _ & _) (Ib & E' & _ & _) N. cases; try discriminate E; try discriminate E'; try discriminate N; reflexivity.
    + exists (Cls 7001 "person" 5000 "r"). split; [exact Per|]. constructor.
      * intros n c X. apply want_cols_some in X as (m & Im & <- & ->). cases.
        -- exists (Att 7001 "id" 23 "integer" 1 0 true "a"). split; [liverow|]. split; [reflexivity|]. constructor; [|reflexivity|cbn; intuition discriminate|cbn; nodefault|cbn; comment].
           typed "integer" (DiscoverSpec.PgReport "int4" "pg_catalog" "integer" false) (Typ 23 "int4" 11 0).
        -- exists (Att 7001 "name" 1043 "character varying(64)" 2 0 true ""). split; [liverow|]. split; [reflexivity|]. constructor; [|reflexivity|cbn; intuition discriminate|cbn; nodefault|cbn; comment].
           typed "varchar(64)" (DiscoverSpec.PgReport "varchar" "pg_catalog" "character varying(64)" false) (Typ 1043 "varchar" 11 0).
        -- exists (Att 7001 "favourite" 6001 """color""" 4 0 false ""). split; [liverow|]. split; [reflexivity|]. constructor; [|reflexivity|cbn; intuition discriminate|cbn; nodefault|cbn; comment].
           typed """shop"".""color""" (DiscoverSpec.PgReport "color" "shop" """color""" false) (Typ 6001 "color" 5000 0).
        -- exists (Att 7001 "created" 1114 "timestamp without time zone" 5 0 true ""). split; [liverow|]. split; [reflexivity|]. constructor; [|reflexivity|cbn; intuition discriminate| |cbn; comment].
           ++ typed "timestamp" (DiscoverSpec.PgReport "timestamp" "pg_catalog" "timestamp without time zone" false) (Typ 1114 "timestamp" 11 0).
           ++ intros e. split; [intros I; cases; eexists None, _; split; reflexivity|intros (n & y & Z & ->); vm_compute in Z; injection Z as <- <-; left; reflexivity].
      * intros a (Ia & E & L & T). cases; try discriminate E; try discriminate L; try (destruct T; reflexivity); (eexists; vm_compute; reflexivity).
      * intros a b (Ia & E & L & T) (Ib & E' & _ & _) N. cases; try discriminate E; try discriminate E'; try discriminate N; reflexivity.
      * intros k I E Ty. cases; try discriminate E; try discriminate Ty. split; [reflexivity|]. split; [reflexivity|]. split; [|split; reflexivity]. constructor; [|constructor]. exists (Att 7001 "id" 23 "integer" 1 0 true "a"). split; [liverow|split; reflexivity].
      * intros k k' I I' E E' Ty Ty'. cases; try discriminate E; try discriminate Ty; try discriminate E'; try discriminate Ty'; reflexivity.
      * intros _. exists (Con "p" "person_pkey" 7001 [1%Z] 0 []). split; [cbn; auto|]. split; [reflexivity|]. split; [reflexivity|]. split; [|split; reflexivity]. constructor; [|constructor]. exists (Att 7001 "id" 23 "integer" 1 0 true "a"). split; [liverow|split; reflexivity].
      * intros n c X. apply want_cons_some in X as [I <-]. cases. exists (Con "u" "uq_name" 7001 [2%Z] 0 []). split; [cbn; auto|]. split; [reflexivity|]. split; [reflexivity|]. split; [reflexivity|]. split; [|split; reflexivity]. constructor; [|constructor].
        exists (Att 7001 "name" 1043 "character varying(64)" 2 0 true ""). split; [liverow|split; reflexivity].
      * intros k I E Ty. cases; try discriminate E; [destruct Ty; discriminate|]. eexists. vm_compute. reflexivity.
      * cbn. comment.
    + exists (Cls 7002 "order" 5000 "r"). split; [exact Ord|]. constructor.
      * intros n c X. apply want_cols_some in X as (m & Im & <- & ->). cases.
        -- exists (Att 7002 "id" 23 "integer" 1 0 true ""). split; [liverow|]. split; [reflexivity|]. constructor; [|reflexivity|cbn; intuition discriminate|cbn; nodefault|cbn; comment].
           typed "integer" (DiscoverSpec.PgReport "int4" "pg_catalog" "integer" false) (Typ 23 "int4" 11 0).
        -- exists (Att 7002 "buyer" 23 "integer" 2 0 true ""). split; [liverow|]. split; [reflexivity|]. constructor; [|reflexivity|cbn; intuition discriminate|cbn; nodefault|cbn; comment].
           typed "integer" (DiscoverSpec.PgReport "int4" "pg_catalog" "integer" false) (Typ 23 "int4" 11 0).
      * intros a (Ia & E & L & T). cases; try discriminate E; (eexists; vm_compute; reflexivity).
      * intros a b (Ia & E & L & T) (Ib & E' & _ & _) N. cases; try discriminate E; try discriminate E'; try discriminate N; reflexivity.
      * intros k I E Ty. cases; try discriminate E; try discriminate Ty. split; [reflexivity|]. split; [reflexivity|]. split; [|split; reflexivity]. constructor; [|constructor]. exists (Att 7002 "id" 23 "integer" 1 0 true ""). split; [liverow|split; reflexivity].
      * intros k k' I I' E E' Ty Ty'. cases; try discriminate E; try discriminate Ty; try discriminate E'; try discriminate Ty'; reflexivity.
      * intros _. exists (Con "p" "order_pkey" 7002 [1%Z] 0 []). split; [cbn; auto|]. split; [reflexivity|]. split; [reflexivity|]. split; [|split; reflexivity]. constructor; [|constructor]. exists (Att 7002 "id" 23 "integer" 1 0 true ""). split; [liverow|split; reflexivity].
      * intros n c X. apply want_cons_some in X as [I <-]. cases. exists (Con "f" "fk_buyer" 7002 [2%Z] 7001 [1%Z]). split; [cbn; auto|]. split; [reflexivity|]. split; [reflexivity|]. split; [reflexivity|]. split.
        -- constructor; [|constructor]. exists (Att 7002 "buyer" 23 "integer" 2 0 true ""). split; [liverow|split; reflexivity].
        -- exists (Cls 7001 "person" 5000 "r"). split; [cbn; auto|]. split; [reflexivity|]. split; [reflexivity|]. split; [cbn; auto|]. constructor; [|constructor]. exists (Att 7001 "id" 23 "integer" 1 0 true "a"). split; [liverow|split; reflexivity].
      * intros k I E Ty. cases; try discriminate E; [destruct Ty; discriminate|]. eexists. vm_compute. reflexivity.
      * cbn. comment.
  - intros [s k] c Sc (I & E & Kd & Hn). cbn in Sc, E, Hn. cases; try discriminate Kd; cbn in E, Hn; subst k; splits; try discriminate; match goal with H : Nsp _ _ = Nsp _ s |- _ => injection H as <- end;
      try (apply elem_of_singleton in Sc; discriminate Sc); eexists; apply x_has; cbn; auto 10.
  - intros k c Sc (I & E & Kd & _). cases; discriminate Kd.
  - intros [s k] c Sc (I & E & Kd & Hn). cbn in Sc, E, Hn. cases; try discriminate Kd; cbn in E, Hn; subst k; splits; try discriminate; match goal with H : Nsp _ _ = Nsp _ s |- _ => injection H as <- end; eexists _, _; apply x_has; cbn; auto 10.
  - intros [s k] t e Sc (I & E & Hn) Ie Et. cbn in Sc, E, Hn. cases; try discriminate Et; cbn in E, Hn; subst k; splits; try discriminate; match goal with H : Nsp _ _ = Nsp _ s |- _ => injection H as <- end; eexists; apply x_has; cbn; auto 10.
Qed.
Lemma x_reports : reports ex_show ex_deparse x_pg x_db x_cat.
Proof.
  split; [exact x_keys|]. split; [exact x_oids|]. split; [exact x_tells|]. intros n In_ e t Ie (It & E & _). cases; vm_compute in E; try discriminate E.
  exists [Enm 6001 "red" 1; Enm 6001 "green" 2]. split; [apply perm_swap|]. split; [|reflexivity]. repeat constructor.
Qed.

(** the rows in the order of the catalogs *)
Definition stored (A : Type) (q : string) (l : list A) : list A := l.
Lemma stored_any : any_order stored. Proof. intros A q l. reflexivity. Qed.
Lemma stored_keys : keys_in_order stored. Proof. intros q l n. reflexivity. Qed.
(** what discovery gives for the instance, and that it equals the declaration *)
Example C53_example_namespace : exists n, get_namespace x_pg stored "shop" = Ok n /\ ns_eqb n (Ns "shop" [x_color] [x_point] [x_person; x_order]) = true.
Proof. eexists. split; vm_compute; reflexivity. Qed.
Example C53_example_has : has_table x_pg (shop "person") = true /\ has_table x_pg (shop "point") = false /\ has_column x_pg (shop "person") "name" = true /\ has_column x_pg (shop "person") "buyer" = false.
Proof. vm_compute. auto. Qed.
(** a server before and after the first synchronization *)
Definition bare : pgcat := PgCat [Nsp 11 "pg_catalog"; Nsp 2200 "public"] [] [] [] [] [] [] [].
Definition x_view (D : db) : pgcat := match db_objs D !! ("shop", "person") with Some _ => x_pg | None => bare end.
Definition empty_db : db := Db ∅ ∅.
Lemma x_plus : plus_cat DPg x_cat empty_db = x_db.
Proof. unfold plus_cat, x_db, empty_db. cbn [db_schemas db_objs]. f_equal; [set_solver|apply (right_id ∅ (∪))]. Qed.
Lemma empty_apart c : apart c empty_db.
Proof.
  constructor.
  - intros k x H. cbn in H. rewrite lookup_empty in H. discriminate.
  - intros n Hn. right. cbn. set_solver.
  - intros k x j H. cbn in H. rewrite lookup_empty in H. discriminate.
Qed.
Lemma nothing_to_x : step_ok DPg PropsSession.nothing x_cat.
Proof.
  split; [constructor|].
  - intros a b Ia Ib E. cases; discriminate.
  - intros e n ty q (a & b & x & Ia & Ib & En & R). cases; discriminate.
  - intros e (a & b & x & Ia & Ib & En & R). cases; discriminate.
  - intros e (a & b & x & Ia & Ib & En & R). cases; discriminate.
Qed.
Lemma nothing_empty : empty_db = plus_cat DPg PropsSession.nothing empty_db.
Proof. unfold plus_cat, PropsSession.nothing, empty_db. cbn [db_schemas db_objs]. f_equal; [set_solver|symmetry; apply (right_id ∅ (∪))]. Qed.
Notation x_explorer := (pg_explorer stored (Some "public") x_view).
(** the first call creates everything, the second does nothing *)
Example C53_example_twice : exists w' l st,
  synchronize DPg default_options eng_pg x_explorer None ["shop"] (Ok x_cat) (World [] empty_db) = (w', true, l) /\ List.length l = 10 /\
  synchronize DPg default_options eng_pg x_explorer None ["shop"] (Ok x_cat) w' = (World st (w_db w'), true, []).
Proof.
  assert (Nf : discover x_explorer empty_db ["shop"] = (PropsSession.nothing, true)) by (vm_compute; reflexivity).
  destruct (gen_mutate DPg default_options PropsSession.nothing x_cat) as [s' [l|e]] eqn:M; [|exfalso; vm_compute in M; discriminate M].
  assert (L : List.length l = 10).
  { assert (Z : match snd (gen_mutate DPg default_options PropsSession.nothing x_cat) with Ok l => List.length l = 10 | Err _ => False end) by (vm_compute; reflexivity). rewrite M in Z. exact Z. }
  assert (X : exec_all eng_pg l empty_db = Some x_db).
  { rewrite nothing_empty at 1. rewrite <- x_plus. unfold gen_mutate in M. destruct (mutate_catalog DPg default_options PropsSession.nothing x_cat) as [[[a b] c]|] eqn:M'; [|discriminate M]. injection M as -> ->.
    destruct nothing_to_x as [C HP].
    exact (mutation_frame DPg default_options PropsSession.nothing x_cat s' b l empty_db M' (conj eq_refl (conj eq_refl (conj eq_refl eq_refl))) PropsSession.nothing_wf x_wf C HP (empty_apart _) (empty_apart _)). }
  assert (S1 : synchronize DPg default_options eng_pg x_explorer None ["shop"] (Ok x_cat) (World [] empty_db) = (World (sorted_or_same x_cat) x_db, true, l)).
  { unfold synchronize. destruct (gen_create DPg default_options [] (Ok x_cat)) as [t' [l0|e]] eqn:G; [|exfalso; vm_compute in G; discriminate G].
    assert (t' = x_cat) as -> by (assert (Z : fst (gen_create DPg default_options [] (Ok x_cat)) = x_cat) by (vm_compute; reflexivity); rewrite G in Z; exact Z).
    cbn [w_db]. rewrite Nf. cbn [negb]. rewrite M. destruct l as [|x l]; [discriminate L|]. now rewrite (exec_upto_all _ _ _ _ X). }
  destruct (C53_postgresql_synchronize_twice ex_show ex_deparse stored (Some "public") x_view default_options ["shop"] x_cat (World [] empty_db) _ _ PropsSession.nothing empty_db
    x_show stored_any stored_keys (conj eq_refl (conj eq_refl (conj eq_refl eq_refl))) x_wf PropsSession.nothing_wf nothing_to_x (empty_apart _) (empty_apart _) x_seen (Permutation_refl _) nothing_empty Nf S1) as [st S2].
  { cbn [w_db]. unfold x_view. rewrite (x_has _ (OTable (want_tab DPg x_person))) by (cbn; auto). exact x_reports. }
  exists (World (sorted_or_same x_cat) x_db), l, st. split; [exact S1|]. split; [exact L|exact S2].
Qed.

(** ** What discovery does not read back *)
(** Data types such as text are shown with a cast that stays in the expression: such a default never compares equal. *)
Theorem C53_cast_default_refuted : forall s suffix, ~ begins QT suffix -> suffix <> "::timestamp without time zone" -> suffix <> "" ->
  to_default_expr (Some (quote s ++ suffix)%string) = Ok (Some (quote s ++ suffix)%string) /\ (quote s ++ suffix)%string <> quote s.
Proof.
  intros s suffix B N E. split.
  - unfold to_default_expr, timestamp_text. rewrite (QuoteProofs.quote_scan s suffix B). destruct (String.eqb_spec suffix "::timestamp without time zone") as [Z|Z]; [contradiction|reflexivity].
  - intros Z. apply E. assert (L : String.length (quote s ++ suffix) = String.length (quote s)) by now rewrite Z. rewrite PyStr.append_length in L. destruct suffix; [reflexivity|cbn in L; lia].
Qed.
Print Assumptions C53_cast_default_refuted.
Example C53_cast_default_example : to_default_expr (Some "'abc'::text") = Ok (Some "'abc'::text") /\ to_default_expr (Some "'a'::character varying") = Ok (Some "'a'::character varying").
Proof. vm_compute. auto. Qed.

(** A table with a CHECK constraint is never equal to what is read back: every synchronization adds the constraint again. *)
Theorem C53_check_constraint_refuted : forall P order q t' t n e, get_table P order q = Ok t' -> table_keyed t -> In (CCheck n e) (t_constraints t) -> table_eqb t' t = false.
Proof.
  intros P order q t' t n e H Ky I. destruct (table_eqb t' t) eqn:E; [|reflexivity]. exfalso. unfold table_eqb in E. rewrite !andb_true_iff in E. destruct E as ((_ & E) & _).
  assert (Wf : List.NoDup (map k_name (t_constraints t'))).
  { unfold get_table in H. destruct (order _ _ (q_table P q)); [discriminate|]. apply bind_inv in H as (cs & _ & H). apply bind_inv in H as (fks & F & H). injection H as <-. cbn. apply ObjectDictProofs.make_wf. }
  pose proof (ObjectDictProofs.eqb_spec k_name constr_eqb _ _ Wf (tk_cons _ Ky) (fun x y Q => proj1 (EqProofs.constr_eqb_eq x y) Q) E) as Pm.
  apply (Permutation_in _ (Permutation_sym Pm)) in I. exact (table_constraints P order q t' H _ I).
Qed.
Print Assumptions C53_check_constraint_refuted.

(** A schema without tables and types is reported as a namespace without name. *)
Theorem C53_empty_schema_nameless : forall P order s, any_order order -> q_enums P s = [] -> q_relations P s ["c"] = [] -> q_relations P s ["r"; "v"] = [] ->
  get_namespace P order s = Ok (Ns "" [] [] []).
Proof.
  intros P order s AO E1 E2 E3. unfold get_namespace. rewrite E1, E2, E3.
  assert (Z : forall A q, order A q [] = []) by (intros A q; apply Permutation_nil; symmetry; apply AO). rewrite !Z. reflexivity.
Qed.
Print Assumptions C53_empty_schema_nameless.

(** Views are taken for tables. *)
Definition with_view : pgcat := PgCat [Nsp 11 "pg_catalog"; Nsp 5000 "shop"] [Cls 7001 "totals" 5000 "v"] [Att 7001 "sum" 23 "integer" 1 0 false ""] [Typ 23 "int4" 11 0] [] [] [] [].
Example C53_view_refuted : has_table with_view (shop "totals") = true /\ get_namespace with_view stored "shop" = Ok (Ns "shop" [] [] [Tab (shop "totals") [ncol "sum" int4] [] [] None None]).
Proof. vm_compute. auto. Qed.

(** The query has no ORDER BY: if the server delivers the rows of a primary key in another order, its columns are read back in that order. *)
Definition pair_pg : pgcat := PgCat [Nsp 11 "pg_catalog"; Nsp 5000 "shop"] [Cls 7001 "item" 5000 "r"]
  [Att 7001 "order" 23 "integer" 1 0 true ""; Att 7001 "line" 23 "integer" 2 0 true ""] [Typ 23 "int4" 11 0] [] [] [Con "p" "pk_item" 7001 [1%Z; 2%Z] 0 []] [].
Definition reversed (A : Type) (q : string) (l : list A) : list A := rev l.
Example C53_key_order_refuted : any_order reversed /\
  (exists t, get_table pair_pg stored (shop "item") = Ok t /\ t_pk t = ["order"; "line"]) /\ (exists t, get_table pair_pg reversed (shop "item") = Ok t /\ t_pk t = ["line"; "order"]).
Proof. split; [intros A q l; symmetry; apply Permutation_rev|]. split; eexists; (split; [vm_compute; reflexivity|reflexivity]). Qed.

(** Comments are looked up without the catalog of the described object: the comment of an object of another kind that has the same
    identifier is taken for that of the table. *)
Definition twin_pg : pgcat := PgCat [Nsp 11 "pg_catalog"; Nsp 5000 "shop"] [Cls 7001 "item" 5000 "r"]
  [Att 7001 "id" 23 "integer" 1 0 true ""] [Typ 23 "int4" 11 0] [] [Dsc 7001 InOther 0 "a function"; Dsc 7001 InClass 0 "items"] [] [].
Example C53_comment_of_other_object_refuted : exists t, get_table twin_pg stored (shop "item") = Ok t /\ t_desc t = Some "a function".
Proof. eexists. split; vm_compute; reflexivity. Qed.

(** A member of a composite type that is an array is read back as its element type. *)
Definition array_pg : pgcat := PgCat [Nsp 11 "pg_catalog"; Nsp 5000 "shop"] [Cls 7003 "path" 5000 "c"]
  [Att 7003 "steps" 1007 "integer[]" 1 1 false ""] [Typ 23 "int4" 11 0; Typ 1007 "_int4" 11 23; Typ 6003 "path" 5000 0] [] [] [] [].
Example C53_array_member_refuted : get_struct array_pg stored (shop "path") = Ok (Struct (shop "path") [Mem "steps" int4 None] None).
Proof. vm_compute. reflexivity. Qed.

(** System columns count as columns; a table name without schema is found in any schema. *)
Example C53_has_refuted : has_column x_pg (shop "person") "ctid" = true /\ has_table x_pg (Qualified None "pg_class") = true.
Proof. vm_compute. auto. Qed.

(** A module without a schema: the objects are declared without a schema and discovered in the current schema, so that the script drops
    that schema with everything in it. *)
Definition public_pg : pgcat := PgCat [Nsp 11 "pg_catalog"; Nsp 2200 "public"] [Cls 7001 "person" 2200 "r"]
  [Att 7001 "id" 23 "integer" 1 0 true ""] [Typ 23 "int4" 11 0] [] [] [Con "p" "pk_person" 7001 [1%Z] 0 []] [].
Definition here : catalog := [Ns "" [] [] [Tab (Qualified None "person") [col "id" int4] ["id"] [] None None]].
Example C53_current_schema_refuted : exists s l, discover (pg_explorer stored (Some "public") (fun _ => public_pg)) empty_db [""] = (s, true) /\
  snd (gen_mutate DPg default_options s here) = Ok l /\ In (SDropSchema true "public") l.
Proof. eexists _, _. split; [vm_compute; reflexivity|]. split; [vm_compute; reflexivity|]. cbn. auto 10. Qed.
