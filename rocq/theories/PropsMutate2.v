(** C17, C19, C20: mutation of enumerations, composite types and columns. *)
From Verif Require Import PyStr QuoteModel ObjectDict ObjectDictProofs Types Objects SqlAst Ddl Mutate DbSpec CatSpec MutSpec
  DbLemmas TabProofs2 EqProofs TabProofs1 TabProofs5 NsProofs2 NoopProofs StmtProofs ExCat.
From stdpp Require Import gmap strings.
Open Scope string_scope.
Open Scope list_scope.

(** ** C17 *)
(** Refused exactly if a value would be lost (or the two enumerations have different names). *)
Theorem C17_refused_iff_value_lost : forall s t : enumt,
  (exists e, mutate_enum s t = Err e) <-> e_name s <> e_name t \/ exists v, In v (e_values s) /\ ~ In v (e_values t).
Proof.
  intros s t. unfold mutate_enum, check_identity. destruct (qid_eqb (e_name s) (e_name t)) eqn:E; cbn [bind].
  - apply qid_eqb_eq in E. destruct (List.filter (fun v => negb (str_in v (e_values t))) (e_values s)) as [|v r] eqn:F.
    + split; [intros (e & X); discriminate|]. intros [N|(v & I & N)]; [congruence|]. exfalso.
      assert (Z : In v (List.filter (fun v => negb (str_in v (e_values t))) (e_values s))); [|rewrite F in Z; destruct Z].
      apply filter_In. split; [exact I|]. destruct (str_in v (e_values t)) eqn:S; [|reflexivity]. apply str_in_spec in S. contradiction.
    + split; [intros _; right|intros _; eauto]. exists v. assert (Z : In v (v :: r)) by now left. rewrite <- F in Z. apply filter_In in Z as [I N]. split; [exact I|].
      intros J. apply str_in_spec in J. rewrite J in N. discriminate.
  - split; [intros _; left|eauto]. intros Z. apply qid_eqb_eq in Z. congruence.
Qed.
Print Assumptions C17_refused_iff_value_lost.
(** Otherwise the missing values are added, each once, in target order. *)
Theorem C17_adds_missing_values_in_order : forall s t l, NoDup (e_values t) -> mutate_enum s t = Ok l ->
  exists vs, l = map (SAddValue (e_name t)) vs /\ NoDup vs /\ sublist vs (e_values t)
             /\ forall v, In v vs <-> In v (e_values t) /\ ~ In v (e_values s).
Proof.
  intros s t l W H. unfold mutate_enum, check_identity in H. destruct (qid_eqb (e_name s) (e_name t)) eqn:E; cbn [bind] in H; [|discriminate]. apply qid_eqb_eq in E.
  destruct (List.filter (fun v => negb (str_in v (e_values t))) (e_values s)); [|discriminate]. injection H as <-. rewrite E.
  exists (List.filter (fun v => negb (str_in v (e_values s))) (e_values t)). split; [reflexivity|]. split; [|split].
  - apply NoDup_ListNoDup. apply List.NoDup_filter. now apply NoDup_ListNoDup.
  - clear. induction (e_values t) as [|v r IH]; simpl; [constructor|]. destruct (negb _); constructor; exact IH.
  - intros v. rewrite filter_In. destruct (str_in v (e_values s)) eqn:S; simpl; split.
    + intros [_ Z]; discriminate.
    + intros [_ N]. apply str_in_spec in S. contradiction.
    + intros [I _]. split; [exact I|]. intros J. apply str_in_spec in J. congruence.
    + intros [I _]. auto.
Qed.
Print Assumptions C17_adds_missing_values_in_order.
(** Executed on a database in which the source enumeration exists, the value set becomes the target's. *)
Theorem C17_result_is_target : forall E s t l D, mutate_enum s t = Ok l -> NoDup (e_values t) ->
  db_objs D !! key_of (e_name s) = Some (OEnum (list_to_set (e_values s))) ->
  exec_all E l D = Some (Db (db_schemas D) (<[key_of (e_name t) := OEnum (list_to_set (e_values t))]> (db_objs D))).
Proof. intros E s t l D H W HD. rewrite (mutate_enum_exec E s t l D H W HD). reflexivity. Qed.
Print Assumptions C17_result_is_target.
Example C17_example : mutate_enum color1 color2 = Ok [SAddValue (shop "color") "blue"] /\ mutate_enum color2 color1 = Err "FormationError" /\ NoDup (e_values color2).
Proof. split; [reflexivity|]. split; [reflexivity|]. simpl. nodup. Qed.

(** ** C19 *)
Theorem C19_struct_reaches_target : forall E d s t l D, mutate_struct d s t = Ok l ->
  NoDup (map m_name (s_members s)) -> NoDup (map m_name (s_members t)) ->
  db_objs D !! key_of (s_name s) = Some (want_struct d s) ->
  exec_all E l D = Some (Db (db_schemas D) (<[key_of (s_name t) := want_struct d t]> (db_objs D))).
Proof.
  intros E d s t l D H Ws Wt HD. rewrite (mutate_struct_exec E d s t l (want_members (s_members s)) D H Ws Wt); [unfold set_obj; do 2 f_equal| |exact HD].
  constructor.
  - intros n. unfold want_members. rewrite (lookup_list_to_map m_name m_type). destruct (find_by m_name n (s_members s)) as [m|] eqn:F.
    + apply find_by_some in F as [I <-]. split; [intros _; now apply in_map|]. intros _. simpl. eauto.
    + split; [intros [x X]; discriminate|]. intros I. apply find_by_none in F. contradiction.
  - intros a Ia. exists (m_type a). split; [|auto]. unfold want_members. rewrite (lookup_list_to_map m_name m_type). rewrite (find_by_in m_name (s_members s) a Ws Ia). reflexivity.
Qed.
Print Assumptions C19_struct_reaches_target.
(** Members in both types are neither dropped nor added; only members of the source are dropped, only members of the target added. *)
Theorem C19_common_members_stay : forall d s t l q acts n ty, mutate_struct d s t = Ok l -> In (SAlterStruct q acts) l ->
  (In (SaDrop n) acts -> In n (map m_name (s_members s)) /\ ~ In n (map m_name (s_members t)))
  /\ (In (SaAdd n ty) acts -> ~ In n (map m_name (s_members s)) /\ exists m, In m (s_members t) /\ m_name m = n /\ m_type m = ty)
  /\ (In (SaSetType n ty) acts -> In n (map m_name (s_members s)) /\ exists m, In m (s_members t) /\ m_name m = n /\ m_type m = ty).
Proof.
  intros d s t l q acts n ty H I. unfold mutate_struct in H. destruct (mutate_struct_base s t) as [b|] eqn:B; cbn [bind] in H; [|discriminate]. injection H as <-.
  apply in_app_or in I as [I|I]; [|destruct d; try (destruct I; fail); destruct (comment_change _ _); [destruct I as [Z|[]]; discriminate|destruct I]].
  unfold mutate_struct_base in B. destruct (check_identity _ _) as [[]|]; cbn [bind] in B; [|discriminate].
  match type of B with bind ?z _ = _ => destruct z as [al|] eqn:E1; cbn [bind] in B; [|discriminate] end.
  match type of B with bind ?z _ = _ => destruct z as [ad|] eqn:E2; cbn [bind] in B; [|discriminate] end. injection B as <-. unfold struct_alter in I.
  match type of I with In _ (match ?z with _ => _ end) => destruct z as [|a0 r] eqn:Ez; [destruct I|] end. destruct I as [[= <- <-]|[]]. rewrite <- Ez. rewrite !in_app_iff.
  assert (Al : forall x, In x al -> exists a b, In a (s_members s) /\ In b (s_members t) /\ m_name a = m_name b /\ x = SaSetType (m_name a) (m_type b)).
  { intros x Ix. destruct (concat_res_in _ _ _ _ E1 Ix) as (p & r' & Ip & Hr & Ir). apply in_inter in Ip as (I1 & I2 & I3). destruct (mem_eqb _ _); [injection Hr as <-; destruct Ir|].
    destruct (type_str _); cbn [bind] in Hr; [|discriminate]. injection Hr as <-. destruct Ir as [<-|[]]. eauto 10. }
  assert (Ad : forall x, In x ad -> exists m, In m (s_members t) /\ ~ In (m_name m) (map m_name (s_members s)) /\ x = SaAdd (m_name m) (m_type m)).
  { intros x Ix. destruct (map_res_inv _ _ _ _ E2 Ix) as (m & Im & Hm). destruct (type_str _); cbn [bind] in Hm; [|discriminate]. injection Hm as <-. apply in_diff in Im as [I1 I2]. eauto. }
  split; [|split]; intros [Ix|[Ix|Ix]].
  - apply in_map_iff in Ix as (m & [= <-] & Im). apply in_diff in Im as [I1 I2]. split; [now apply in_map|exact I2].
  - destruct (Al _ Ix) as (a1 & b' & _ & _ & _ & Z). discriminate.
  - destruct (Ad _ Ix) as (m & _ & _ & Z). discriminate.
  - apply in_map_iff in Ix as (m & Z & _). discriminate.
  - destruct (Al _ Ix) as (a1 & b' & _ & _ & _ & Z). discriminate.
  - destruct (Ad _ Ix) as (m & I1 & I2 & [= -> ->]). eauto.
  - apply in_map_iff in Ix as (m & Z & _). discriminate.
  - destruct (Al _ Ix) as (a1 & b' & I1 & I2 & I3 & [= -> ->]). split; [now apply in_map|]. exists b'. auto.
  - destruct (Ad _ Ix) as (m & _ & _ & Z). discriminate.
Qed.
Print Assumptions C19_common_members_stay.
(** Nothing is generated only if the members (and the stored description) already agree. *)
Theorem C19_empty_only_if_equal : forall d s t, mutate_struct d s t = Ok [] ->
  NoDup (map m_name (s_members s)) -> NoDup (map m_name (s_members t)) -> s_name s = s_name t /\ want_struct d s = want_struct d t.
Proof.
  intros d s t H Ws Wt. assert (En : s_name s = s_name t).
  { unfold mutate_struct in H. destruct (mutate_struct_base s t) as [b|] eqn:B; cbn [bind] in H; [|discriminate]. unfold mutate_struct_base, check_identity in B. destruct (qid_eqb (s_name s) (s_name t)) eqn:E; cbn [bind] in B; [|discriminate]. now apply qid_eqb_eq. }
  split; [exact En|].
  assert (X := C19_struct_reaches_target eng_pg d s t [] (Db ∅ {[key_of (s_name s) := want_struct d s]}) H Ws Wt). simpl in X. rewrite lookup_singleton in X. specialize (X eq_refl).
  assert (Z := f_equal (fun o : option db => match o with Some D => db_objs D !! key_of (s_name t) | None => None end) X). cbv beta iota in Z. simpl in Z.
  rewrite lookup_insert, En, lookup_singleton in Z. congruence.
Qed.
Print Assumptions C19_empty_only_if_equal.
Example C19_example : mutate_struct DPg point1 point2 = Ok [SAlterStruct (shop "point") [SaDrop "y"; SaSetType "x" TReal; SaAdd "z" TDouble]; SCommentType (shop "point") None]
  /\ NoDup (map m_name (s_members point1)) /\ NoDup (map m_name (s_members point2)).
Proof. split; [reflexivity|]. split; simpl; nodup. Qed.
(** A change of a member's description only still produces a statement (that changes nothing). *)
Theorem C19_nothing_if_members_agree_refuted :
  ~ (forall s t, s_name s = s_name t -> map (fun m => (m_name m, m_type m)) (s_members s) = map (fun m => (m_name m, m_type m)) (s_members t) -> s_desc s = s_desc t -> mutate_struct DPg s t = Ok []).
Proof.
  intros H. assert (X := H (Struct (shop "p") [Mem "x" TReal None] None) (Struct (shop "p") [Mem "x" TReal (Some "d")] None) eq_refl eq_refl eq_refl). discriminate X.
Qed.
Print Assumptions C19_nothing_if_members_agree_refuted.

(** ** C20 *)
(** The column described by [c] in a table with primary key [pk], before or after: its type, nullability, default, identity. *)
Definition col_is (d : dialect) (c : column) (x : dbcol) : Prop :=
  dc_type x = c_type c /\ dc_null x = c_nullable c /\ dc_default x = want_default d c /\ dc_ident x = c_identity c.
(** One column: the generated actions turn the source column into the target column and change nothing else of the table.
    (SQL Server keeps defaults in constraints of the table; these are covered by the next theorem.) *)
Theorem C20_column_reaches_target_partial : forall E d s t acts tb x,
  (general d -> default_as_is d s t) -> d <> DMSSQL -> mutate_column d s t = Ok acts -> c_name s = c_name t -> col_wf s -> col_wf t -> ident_compat s t -> default_compat d s t ->
  (In (c_name t) (dt_pk tb) -> c_nullable t = false) ->
  dt_cols tb !! c_name s = Some x -> col_is d s x -> (d = DMySQL -> dc_comment x = want_comment d (c_desc s)) ->
  exists y, col_is d t y /\ exec_actions E acts tb = Some (DbTab (<[c_name t := y]> (dt_cols tb)) (dt_pk tb) (dt_cons tb) (dt_comment tb)).
Proof.
  intros E d s t acts tb x F M H En Ws Wt Ic Dc Pk Hx (X1 & X2 & X3 & X4) Xc. rewrite En in Hx.
  exists (DbCol (c_type t) (c_nullable t) (new_default d x t) (c_identity t) (new_comment d x t)). split.
  - repeat split. simpl. unfold new_default. destruct d; congruence.
  - rewrite (mutate_column_exec E d s t acts tb x F H En Ws Wt Ic Pk); [reflexivity| |exact Hx]. constructor.
    + congruence.
    + congruence.
    + intros _ Ed. rewrite X3. now apply Dc.
    + exact X4.
    + intros Ed _ Ec. rewrite (Xc Ed). exact Ec.
Qed.
Print Assumptions C20_column_reaches_target_partial.
(** All columns of a table, all dialects. *)
Theorem C20_columns_of_table : forall d s t stmts tb D,
  mutate_table d s t = Ok stmts -> tab_wf d s -> tab_wf d t -> tab_compat d s t ->
  tab_like d s t tb -> db_objs D !! key_of (t_name s) = Some (OTable tb) ->
  exists D' tb', exec_all (engine_of d) stmts D = Some D' /\ db_objs D' !! key_of (t_name t) = Some (OTable tb')
  /\ (forall c, In c (t_columns t) -> exists x, dt_cols tb' !! c_name c = Some x /\ col_is d c x)
  /\ (forall n, is_Some (dt_cols tb' !! n) -> In n (map c_name (t_columns t))).
Proof.
  intros d s t stmts tb D H Ws Wt C L HD. exists (set_obj (key_of (t_name t)) (Some (OTable (want_tab d t))) D), (want_tab d t). split; [now apply (mutate_table_exec d s t stmts tb D)|].
  split; [unfold set_obj; simpl; apply lookup_partial_alter|]. simpl. unfold want_cols. split.
  - intros c Ic. exists (want_col d c). split; [|repeat split]. rewrite (lookup_list_to_map c_name (want_col d)), (find_by_in c_name (t_columns t) c (tw_cols _ _ Wt) Ic). reflexivity.
  - intros n. rewrite (lookup_list_to_map c_name (want_col d)). destruct (find_by c_name n (t_columns t)) as [c|] eqn:Fc; [|intros [x X]; discriminate]. intros _.
    apply find_by_some in Fc as [I <-]. now apply in_map.
Qed.
Print Assumptions C20_columns_of_table.
(** Nothing is generated when type, nullability, default and identity agree (and for MySQL the comment), for any dialect. *)
Theorem C20_nothing_if_equal : forall d s t, c_type s = c_type t -> c_nullable s = c_nullable t -> c_default s = c_default t -> c_identity s = c_identity t ->
  (d = DMySQL -> exists m, mysql_comment (c_desc s) = Ok m /\ mysql_comment (c_desc t) = Ok m) -> mutate_column d s t = Ok [].
Proof.
  intros d s t E1 E2 E3 E4 E5.
  assert (T : type_eqb (c_type s) (c_type t) = true) by now apply type_eqb_eq.
  assert (O : os_eqb (c_default s) (c_default t) = true) by now apply os_eqb_eq.
  assert (B : mutate_column_base s t = Ok []).
  { unfold mutate_column_base. destruct (col_eqb s t); [reflexivity|]. rewrite T. cbn [bind]. rewrite E2, E4, <- E3. destruct (c_nullable t), (c_identity t); cbn; (destruct (c_default s) as [e|]; [rewrite ?String.eqb_refl|]; reflexivity). }
  destruct d; try exact B; simpl.
  - unfold mutate_column_mysql. rewrite T, O, E2, E4, !Bool.eqb_reflx. cbn [negb orb]. destruct (E5 eq_refl) as (m & -> & ->). cbn [bind].
    assert (Z : os_eqb m m = true) by now apply os_eqb_eq. now rewrite Z.
  - unfold mutate_column_mssql. rewrite T, E2, E4, !Bool.eqb_reflx. reflexivity.
  - unfold mutate_column_oracle. rewrite T, O, E2, E4, !Bool.eqb_reflx. reflexivity.
Qed.
Print Assumptions C20_nothing_if_equal.
(** and only then, provided the spelling of the target type exists *)
Theorem C20_nothing_only_if_equal : forall d s t, d <> DMSSQL -> c_name s = c_name t -> mutate_column d s t = Ok [] ->
  c_type s = c_type t /\ c_nullable s = c_nullable t /\ c_default s = c_default t /\ c_identity s = c_identity t.
Proof.
  intros d s t M En H.
  assert (B : mutate_column_base s t = Ok [] -> c_type s = c_type t /\ c_nullable s = c_nullable t /\ c_default s = c_default t /\ c_identity s = c_identity t).
  { unfold mutate_column_base. destruct (col_eqb s t) eqn:E; [apply NoopProofs.col_eqb_eq in E; subst; auto|].
    destruct (type_eqb (c_type s) (c_type t)) eqn:T; cbn [bind].
    - apply type_eqb_eq in T. rewrite T. intros [= X]. apply app_eq_nil in X as [X1 X]. apply app_eq_nil in X as [X2 X3].
      destruct (c_nullable s), (c_nullable t), (c_identity s), (c_identity t); try discriminate X1; try discriminate X3; (repeat split; auto);
      destruct (c_default s), (c_default t); try discriminate X2; auto; (cbn in X2; destruct (String.eqb_spec s0 s1); [congruence|discriminate X2]).
    - destruct (type_str (c_type t)); cbn [bind]; discriminate. }
  destruct d; try (apply B; exact H); try congruence; simpl in H.
  - unfold mutate_column_mysql in H. destruct (type_eqb (c_type s) (c_type t)) eqn:T, (Bool.eqb (c_nullable s) (c_nullable t)) eqn:N, (os_eqb (c_default s) (c_default t)) eqn:O, (Bool.eqb (c_identity s) (c_identity t)) eqn:I;
      cbn [negb orb bind] in H; try (destruct (column_def DMySQL t); discriminate H).
    apply type_eqb_eq in T. apply Bool.eqb_prop in N, I. apply os_eqb_eq in O. auto.
  - unfold mutate_column_oracle in H. destruct (type_eqb (c_type s) (c_type t)) eqn:T; [|destruct (type_str (c_type t)); discriminate H]. cbn [bind] in H.
    destruct (os_eqb (c_default s) (c_default t)) eqn:O, (Bool.eqb (c_nullable s) (c_nullable t)) eqn:N, (Bool.eqb (c_identity s) (c_identity t)) eqn:I; try discriminate H.
    apply type_eqb_eq in T. apply Bool.eqb_prop in N, I. apply os_eqb_eq in O. auto.
Qed.
Print Assumptions C20_nothing_only_if_equal.
(** SQL Server refuses exactly the changes of the identity property (given that the type can be spelled). *)
Theorem C20_mssql_refuses_identity_change : forall s t, (exists x, type_str (c_type t) = Ok x) ->
  mutate_column DMSSQL s t = Err "ColumnFormationError" <-> c_identity s <> c_identity t.
Proof.
  intros s t [x X]. simpl. unfold mutate_column_mssql. destruct (Bool.eqb (c_identity s) (c_identity t)) eqn:I; cbn [negb].
  - apply Bool.eqb_prop in I. split; [|congruence]. destruct (_ || _)%bool; [|discriminate]. rewrite X. discriminate.
  - split; [|auto]. intros _ Z. rewrite Z, Bool.eqb_reflx in I. discriminate.
Qed.
Print Assumptions C20_mssql_refuses_identity_change.
Example C20_example :
  let s := Col "name" (TVarChar (Some 64%Z)) false (Some "'?'") false None in let t := Col "name" (TVarChar None) true None false None in
  mutate_column DPg s t = Ok [ASetType "name" (TVarChar None); ADropNotNull "name"; ADropDefault "name"]
  /\ col_wf s /\ col_wf t /\ ident_compat s t /\ default_compat DPg s t.
Proof. simpl. repeat split; try discriminate; unfold ident_compat, default_compat; simpl; congruence. Qed.
(** an identity column that becomes nullable cannot be altered this way (PostgreSQL) *)
Theorem C20_identity_to_nullable_refuted :
  ~ (forall s t acts tb x, mutate_column DPg s t = Ok acts -> c_name s = c_name t -> col_wf s -> col_wf t -> default_compat DPg s t -> ~ In (c_name t) (dt_pk tb) ->
     dt_cols tb !! c_name s = Some x -> col_is DPg s x -> exists tb', exec_actions eng_pg acts tb = Some tb').
Proof.
  intros H. set (s := Col "x" int4 false None true None). set (t := Col "x" int4 true None false None).
  destruct (H s t [ADropNotNull "x"; ADropIdentity "x"] (DbTab {["x" := want_col DPg s]} [] ∅ None) (want_col DPg s)) as [tb' X]; try reflexivity; try (intros Z; discriminate Z).
  - split; reflexivity.
  - intros _ _. reflexivity.
  - intros [].
  - repeat split.
  - vm_compute in X. discriminate.
Qed.
Print Assumptions C20_identity_to_nullable_refuted.
(** Snowflake writes timestamp defaults with a type prefix when creating a column, but not when altering it. *)
Theorem C20_snowflake_default_refuted :
  ~ (forall s t acts tb x, mutate_column DSnow s t = Ok acts -> c_name s = c_name t -> col_wf s -> col_wf t -> default_compat DSnow s t -> ident_compat s t -> ~ In (c_name t) (dt_pk tb) ->
     dt_cols tb !! c_name s = Some x -> col_is DSnow s x -> exists tb' y, exec_actions eng_pg acts tb = Some tb' /\ dt_cols tb' !! c_name t = Some y /\ col_is DSnow t y).
Proof.
  intros H. set (s := Col "x" (TTimestamp None false) false None false None). set (t := Col "x" (TTimestamp None false) false (Some "'2024-01-01 00:00:00'") false None).
  destruct (H s t [ASetDefault "x" "'2024-01-01 00:00:00'"] (DbTab {["x" := want_col DSnow s]} [] ∅ None) (want_col DSnow s)) as (tb' & y & X & Y & _ & _ & Z & _); try reflexivity; try (intros Z; discriminate Z).
  - intros [].
  - repeat split.
  - vm_compute in X. injection X as <-. vm_compute in Y. injection Y as <-. vm_compute in Z. discriminate Z.
Qed.
Print Assumptions C20_snowflake_default_refuted.
