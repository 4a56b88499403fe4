(** C52: enumerations keep every member. *)
From Verif Require Import PyStr QuoteModel ObjectDict ObjectDictProofs Types Objects Compat Convert ConvertDialects ConvertSpec ConvertProofs
  CloseSpec CloseProofs1 CloseProofs2 CloseProofs3 CloseProofs4 CloseProofs5 CloseProofs6 NamesProofs PropsConvert PropsScalar PropsClose.
From Coq Require Import Lia.
Open Scope string_scope.

Lemma enum_entity_cls env e vs : env e = KEnum vs -> is_enum_cls env e = true.
Proof. unfold is_enum_cls. now intros ->. Qed.
Lemma declared_enum f e : declared_as f (YCls e) -> field_type (field_properties (f_type f)) = YCls e /\ required_type f = YCls e.
Proof.
  intros D. assert (X : field_type (field_properties (f_type f)) = YCls e) by (apply (declared_type f (YCls e) []); auto).
  split; [exact X|]. unfold required_type. now rewrite X.
Qed.

(** ** Types *)
(** If enumerations become types, each has one of its name, in the schema of its module, with the values of all members in
    the order of declaration. *)
Lemma enum_facts env o refs ets m e : enum_types env o refs = Ok ets -> In (m, e) ets ->
  exists k n vs, ns_get o m = Ok k /\ env (m, n) = KEnum vs /\ e = Enum (Qualified k n) (map ev_text vs).
Proof.
  intros HE I. unfold enum_types in HE. destruct (o_enum o); try (injection HE as <-; destruct I). apply bind_inv in HE as (l & E & HE). injection HE as HE. rewrite <- HE in I.
  destruct (in_concat_ok _ _ _ _ E I) as (c & r & Ic & Er & Ir). destruct (env c) as [|vs|] eqn:K; try (injection Er as <-; destruct Ir).
  destruct (Nat.ltb _ 2); [injection Er as <-; destruct Ir|]. apply bind_inv in Er as (k & Ek & Er). injection Er as <-. destruct Ir as [Ir|[]]. injection Ir as <- <-.
  exists k, (snd c), vs. split; [exact Ek|]. split; [destruct c; exact K|reflexivity].
Qed.
Theorem C52_type_keeps_members env o refs fuel topo cat c vs :
  ordinary env o refs -> ordinary_types env o refs -> dataclasses_to_catalog env o fuel topo refs = Ok cat -> o_enum o = EmType ->
  In c refs -> env c = KEnum vs ->
  exists s n, In (fst c, s) (o_ns o) /\ In n cat /\ n_name n = or_empty s /\ In (Enum (Qualified s (snd c)) (map ev_text vs)) (n_enums n).
Proof.
  intros HO HT H OE Ic K. unfold dataclasses_to_catalog in H. apply bind_inv in H as (ets & HE & H). apply bind_inv in H as (sts & HS & H). apply bind_inv in H as (ts & HTs & H).
  assert (OQ : o_qualified o = true) by (apply (ot_qualified _ _ _ HT); tauto).
  destruct (ot_modules _ _ _ HT c Ic) as (en & Ie & Ee & Fe).
  assert (EE : is_entity_cls env en = true).
  { destruct Ee as (fs & a & d & ps & K' & f & If & KF). unfold is_entity_cls. rewrite K'. unfold has_key, fields_of. rewrite K'. apply existsb_exists. exists f. split; [exact If|].
    destruct KF as (t & ms & F & Im). unfold is_primary_key_type. rewrite F. simpl. apply existsb_exists. exists MPrimary. split; [exact Im|now apply meta_eqb_eq]. }
  pose proof HTs as HT2. unfold all_tables in HT2. binds HT2. binds HT2. binds HT2. clear HT2.
  destruct (tables_exist env o refs fuel ts v1 E1 HTs en Ie (or_introl EE)) as (t & It & _). rewrite Fe in It.
  apply multi_of_in in It as (g & Ig & _). unfold make_catalog in H. rewrite OQ in H. binds H. injection H as <-.
  apply map_res_all2 in E2. destruct (all2_in_l _ _ _ _ E2 Ig) as (ns & Ins & Ens). binds Ens. injection Ens as <-. cbn [fst snd] in E3, Ins.
  exists v3, (make_ns (or_empty v3) (multi_get (fst c) (multi_of ets)) (multi_get (fst c) (multi_of sts)) g). split; [eapply ns_in; eauto|]. split; [|split; [reflexivity|]].
  - apply make_keep; [exact Ins|]. intros y Iy Ky. destruct (all2_in_r _ _ _ _ E2 Iy) as ([m' g'] & Ig' & Eg'). binds Eg'. injection Eg' as <-.
    cbn [n_name make_ns fst snd] in Ky, E4. apply ns_in in E4. pose proof (ns_in _ _ _ E3) as E3'. destruct (ord_schemas _ _ _ HO _ _ _ _ E4 E3' Ky) as [-> ->]. cbn [fst snd].
    now rewrite (group_unique _ _ _ _ (multi_of_keys ts) Ig' Ig).
  - cbn [n_enums make_ns].
    assert (L : In (fst c, Enum (Qualified v3 (snd c)) (map ev_text vs)) ets).
    { pose proof HE as HE'. unfold enum_types in HE'. rewrite OE in HE'. apply bind_inv in HE' as (l & El & HE'). injection HE' as HE'. rewrite <- HE'.
      assert (J : In c (sort_names (filter (is_enum_cls env) refs))) by (rewrite sort_names_in; apply filter_In; split; [exact Ic|eapply enum_entity_cls; eauto]).
      apply map_res_all2 in El. destruct (all2_in_l _ _ _ _ El J) as (r & Ir & Er). cbv beta in Er. rewrite K in Er.
      pose proof (ot_members _ _ _ HT c vs OE Ic K) as M. destruct (Nat.ltb (length vs) 2) eqn:LT; [apply Nat.ltb_lt in LT; lia|].
      rewrite E3 in Er. injection Er as <-. apply in_concat. eexists. split; [exact Ir|now left]. }
    apply make_keep.
    + apply multi_get_complete; [apply multi_of_keys|]. now apply multi_of_in.
    + intros y Iy Ky. apply multi_get_in, multi_of_in in Iy. destruct (enum_facts env o refs ets _ _ HE Iy) as (k & nm & ws & A1 & A2 & ->).
      assert (k = v3) by congruence. subst k. unfold e_key in Ky. cbn in Ky. subst nm. destruct c as [m nm]. cbn [fst snd] in *. congruence.
Qed.
Print Assumptions C52_type_keeps_members.

(** ** Inline *)
(** If enumerations are part of the type of a column, the column's type lists the values of all members, in the order of
    declaration. *)
Theorem C52_inline_keeps_members env o fuel c fs a d ps t f e vs :
  sane_options o -> (forall x s, In (x, s) (o_subst o) -> forall q, ~ mentions x q) -> env c = KData fs a d ps -> NoDup (map f_name fs) ->
  dataclass_to_table env o fuel c = Ok t -> o_enum o = EmInline ->
  In f fs -> declared_as f (YCls e) -> env e = KEnum vs ->
  exists k, In k (t_columns t) /\ c_name k = f_name f /\ c_type k = TEnum (map ev_text vs).
Proof.
  intros S NS E ND H OE I D K. destruct (scalar_column env o fuel c fs a d ps t f (YCls e) [] S E ND H I) as (k & A1 & A2 & A3); auto.
  exists k. split; [exact A1|]. split; [exact A2|]. cbn [annotated] in A3. destruct fuel as [|n]; [discriminate|]. cbn [member_sql] in A3.
  assert (SU : subst o (YCls e) = None).
  { unfold subst. destruct (find _ _) as [[x s]|] eqn:F; [|reflexivity]. apply find_some in F as [F Q]. apply py_eqb_eq in Q. cbn in Q. subst x. exfalso. apply (NS _ _ F e). constructor. }
  rewrite SU in A3. cbn [is_simple] in A3. rewrite (enum_entity_cls _ _ _ K) in A3. unfold simple_sql, value_sql in A3. rewrite SU in A3. cbn [basic_sql] in A3.
  unfold fixed_sql, same_object in A3. cbn [py_eqb andb py_int8 py_int16 py_int32 py_int64 py_uint8 py_uint16 py_uint32 py_uint64 py_float32 py_float64 int_type metadata bind unwrap] in A3.
  rewrite K in A3. unfold enum_sql in A3. apply bind_inv in A3 as (vt & _ & A3). rewrite OE in A3. destruct vt; try discriminate; now injection A3 as <-.
Qed.
Print Assumptions C52_inline_keeps_members.

Ltac destruct_bounds := repeat match goal with x : option Z |- _ => destruct x end; try discriminate; try contradiction; try exact Logic.I.
(** ** Check constraints *)
(** If enumerations are checked, the table has a CHECK constraint whose list has the constants of all members. *)
Theorem C52_check_keeps_members env o fuel c fs a d ps t f e vs :
  sane_options o -> (forall x s, In (x, s) (o_subst o) -> (forall q, ~ mentions x q) /\ check_condition (Col "" s true None false None) = None) ->
  (forall n, o_skip o (MMaxLength n) = false) ->
  env c = KData fs a d ps -> NoDup (map f_name fs) ->
  dataclass_to_table env o fuel c = Ok t -> o_enum o = EmCheck -> o_check o = true ->
  In f fs -> declared_as f (YCls e) -> env e = KEnum vs ->
  exists n ws, In (CCheck n (local_quoted (f_name f) ++ " IN (" ++ join_str ", " ws ++ ")")) (t_constraints t) /\
    Forall2 (fun v w => constant (ev_value v) = Ok w) vs ws.
Proof.
  intros S NS SK E ND H OE OC I D K.
  assert (DF : data_fields env c = fs) by (unfold data_fields; now rewrite E).
  destruct (declared_enum f e D) as [FT RT].
  destruct (field_column env o fuel c fs a d ps t f _ S E ND H I FT) as (k & A1 & A2 & A3 & cols & ks & B1 & B2 & B3 & B4 & B5);
    [apply (declared_scalar env o f (YCls e) []); auto|].
  pose proof B2 as T. unfold table_keys in T. apply bind_inv in T as (k1 & T1 & T). apply bind_inv in T as (k2 & T2 & T). apply bind_inv in T as (k3 & T3 & T).
  apply bind_inv in T as (k4 & T4 & T). apply bind_inv in T as (k5 & T5 & T). injection T as T. rewrite OE, OC in T4. unfold enum_checks in T4.
  assert (IE : In f (enum_fields env c)).
  { unfold enum_fields. apply filter_In. split; [unfold fields_of; rewrite E; exact I|]. rewrite RT. unfold is_type_enum. cbn [unwrap]. now rewrite (enum_entity_cls _ _ _ K). }
  pose proof T4 as T4'. apply map_res_all2 in T4. destruct (all2_in_l _ _ _ _ T4 IE) as (y & Iy & Ey). apply bind_inv in Ey as (ws & Ew & Ey). apply bind_inv in Ey as (n & En & Ey). injection Ey as <-.
  rewrite RT in Ew. unfold enum_values in Ew. cbn [unwrap] in Ew. rewrite K in Ew.
  exists n, ws. split; [|clear - Ew; apply map_res_all2 in Ew; induction Ew; constructor; auto].
  rewrite B4. apply make_keep.
  - rewrite <- T, !in_app_iff. tauto.
  - intros z Iz Ez.
    assert (SC : source env o c (CCheck n (local_quoted (f_name f) ++ " IN (" ++ join_str ", " ws ++ ")"))) by (eapply so_check; [rewrite DF; exact I|exact En|reflexivity]).
    pose proof (sources env o fuel c cols ks z B1 B2 Iz) as Sz. assert (ND' : NoDup (map f_name (data_fields env c))) by now rewrite DF.
    destruct z as [un ucs|fn fcs fq fr|dn dcs drs|cn cs].
    1-3: symmetry; eapply (same_name env o c ND'); [exact Sz|exact SC|intros ? ?; discriminate|exact Ez].
    cbn [k_name] in Ez. subst cn. destruct (check_source env o fuel c cols ks n cs B1 B2 Iz) as [(g & us & Ig & Kg & Mg & ->)|(col & Icol & Cc & Kc)].
    + unfold enum_fields in Ig. apply filter_In in Ig as [Ig _].
      destruct (key_name_eq env o c ND' "ch" f "ch" g n) as [_ <-]; auto; [now rewrite DF|unfold tags; simpl; tauto..|].
      rewrite RT in Mg. unfold enum_values in Mg. cbn [unwrap] in Mg. rewrite K in Mg. assert (us = ws) by congruence. now subst.
    + exfalso. assert (CN : c_name col = f_name f).
      { apply key_name_form in En as (p & P & Pn). apply key_name_form in Kc as (p' & P' & Pn'). assert (p' = p) by congruence. subst p'. rewrite Pn in Pn'.
        simpl in Pn'. injection Pn' as Pn'. apply app_left in Pn'. simpl in Pn'. now injection Pn' as Pn'. }
      assert (col = k) by (eapply same_column; eauto; congruence). subst col.
      assert (NB : forall s, c_type k = s -> match base_type s with TInt _ _ None None => True | TInt _ _ _ _ => False | _ => True end).
      { intros s <-. destruct fuel as [|m]; [discriminate|]. cbn [member_sql] in A3.
        assert (SUB : forall x s, subst o x = Some s -> match base_type s with TInt _ _ None None => True | TInt _ _ _ _ => False | _ => True end).
        { intros x s F. unfold subst in F. destruct (find _ _) as [[x' s']|] eqn:F'; [|discriminate]. injection F as ->. apply find_some in F' as [F' _].
          apply NS in F' as [_ F']. unfold check_condition in F'. cbn [c_type] in F'. destruct (base_type s); auto. destruct_bounds. }
        assert (SU : subst o (YCls e) = None).
        { unfold subst. destruct (find _ _) as [[x s]|] eqn:F; [|reflexivity]. apply find_some in F as [F Q]. apply py_eqb_eq in Q. cbn in Q. subst x. exfalso. apply NS in F as [F _]. apply (F e). constructor. }
        rewrite SU in A3. cbn [is_simple] in A3. rewrite (enum_entity_cls _ _ _ K) in A3. unfold simple_sql, value_sql in A3. rewrite SU in A3. cbn [basic_sql] in A3.
        unfold fixed_sql, same_object in A3. cbn [py_eqb andb py_int8 py_int16 py_int32 py_int64 py_uint8 py_uint16 py_uint32 py_uint64 py_float32 py_float64 int_type metadata bind unwrap] in A3.
        rewrite K in A3. unfold enum_sql in A3. apply bind_inv in A3 as (vt & _ & A3). rewrite OE in A3.
        assert (LB : forall s, scalar_sql o label_type = Ok s -> match base_type s with TInt _ _ None None => True | TInt _ _ _ _ => False | _ => True end).
        { intros s F. unfold scalar_sql, value_sql, label_type in F. destruct (subst o (YAnn YStr [MMaxLength 64])) eqn:Q; [cbn [bind] in F; injection F as <-; exact (SUB _ _ Q)|].
          cbn [basic_sql] in F. unfold fixed_sql, same_object in F. cbn [py_eqb andb py_int8 py_int16 py_int32 py_int64 py_uint8 py_uint16 py_uint32 py_uint64 py_float32 py_float64 int_type metadata bind unwrap] in F.
          unfold parse_metas in F. rewrite SK in F. unfold annotated_base in F. destruct (subst o YStr) as [u|] eqn:Q'.
          - apply bind_inv in F as (w & F & F1). apply bind_inv in F as (u' & F & F2). injection F2 as <-. injection F1 as <-.
            apply SUB in Q'. clear - F Q'. revert u' F. induction u; intros u' F; cbn in F; try discriminate; try (injection F as <-; exact Logic.I).
            apply bind_inv in F as (w & F & F1). injection F1 as <-. cbn [base_type] in *. exact (IHu Q' _ F).
          - cbn in F. injection F as <-. exact Logic.I. }
        destruct vt; try discriminate; [now apply LB|].
        unfold scalar_sql, value_sql in A3. destruct (subst o YInt) eqn:Q; [cbn [bind] in A3; injection A3 as A3; rewrite <- A3; exact (SUB _ _ Q)|]. cbn in A3. injection A3 as A3. rewrite <- A3. exact Logic.I. }
      specialize (NB _ eq_refl). unfold check_condition in Cc. destruct (base_type (c_type k)); try discriminate. destruct_bounds.
Qed.
Print Assumptions C52_check_keeps_members.

(** The dialects meet what is assumed about substitutions. *)
Lemma dialect_substitutions d g x s : In (x, s) (o_subst (dialect_options d g)) -> (forall q, ~ mentions x q) /\ check_condition (Col "" s true None false None) = None.
Proof.
  intros I. split; [eapply (proj1 (C35_dialects d g)); eauto|].
  destruct d; simpl in I; repeat (destruct I as [I|I]; [injection I as <- <-; reflexivity|]); contradiction.
Qed.

(** ** Lookup tables *)
(** If enumerations become tables, a field of an enumeration refers to the table of the enumeration's name, in the schema of
    its module.  Its key [id] is generated by the server, its column [value] is required and unique, and the rows that it is
    created with (if asked for) are the values of all members, in the order of declaration. *)
Definition label_enum (vs : list evalue) : Prop := vs <> [] /\ ((exists l, vs = map EStr l) \/ (exists l, vs = map EInt l)).
Record lookup_table (cat : catalog) (q : qid) (rows : option (list pyval)) (t : table) : Prop := Lookup {
  lk_located : located cat q t;
  lk_key : t_pk t = ["id"];
  lk_columns : map c_name (t_columns t) = ["id"; "value"];
  lk_id : forall k, In k (t_columns t) -> c_name k = "id" -> c_identity k = true /\ c_nullable k = false;
  lk_value : forall k, In k (t_columns t) -> c_name k = "value" -> c_identity k = false /\ c_nullable k = false;
  lk_unique : exists n, t_constraints t = [CUnique n ["value"]];
  lk_rows : t_enum t = rows }.
Lemma label_value_type vs : label_enum vs -> exists vt, enum_value_type vs = Ok vt /\ (vt = VtStr \/ vt = VtInt).
Proof.
  intros (NE & [(l & ->)|(l & ->)]); unfold enum_value_type; rewrite map_map; cbn [ev_type].
  - exists VtStr. split; [|auto]. destruct l as [|x l]; [exfalso; now apply NE|]. clear NE. induction l as [|y l IH]; [reflexivity|].
    cbn [map nodup] in *. destruct (in_dec vtype_eq_dec VtStr (VtStr :: map (fun _ => VtStr) l)) as [_|N]; [exact IH|exfalso; apply N; now left].
  - exists VtInt. split; [|auto]. destruct l as [|x l]; [exfalso; now apply NE|]. clear NE. induction l as [|y l IH]; [reflexivity|].
    cbn [map nodup] in *. destruct (in_dec vtype_eq_dec VtInt (VtInt :: map (fun _ => VtInt) l)) as [_|N]; [exact IH|exfalso; apply N; now left].
Qed.
Lemma lookup_shape env o fuel e t vs cat : enum_table env o fuel e = Ok t -> env e = KEnum vs -> label_enum vs -> located cat (t_name t) t ->
  lookup_table cat (t_name t) (if o_init o then Some (map ev_value vs) else None) t.
Proof.
  intros H K L X. unfold enum_table in H. apply bind_inv in H as (q & Q & H). apply bind_inv in H as (kt & KT & H). rewrite K in H.
  destruct (label_value_type vs L) as (vt & V & VT). rewrite V in H. cbn [bind] in H. apply bind_inv in H as (rest & R & H).
  assert (RS : exists s, rest = ([Col "value" s false None false None], [CUnique ("uq_" ++ snd e) ["value"]])).
  { destruct VT as [-> | ->]; (apply bind_inv in R as (s & _ & R); injection R as <-; eauto). }
  destruct RS as (s & ->). cbn [fst snd] in H. injection H as <-. cbn [t_name make_table] in *.
  split; try reflexivity; try exact X.
  - intros k I. simpl in I. destruct I as [<-|[<-|[]]]; [auto|discriminate].
  - intros k I. simpl in I. destruct I as [<-|[<-|[]]]; [discriminate|auto].
  - eexists. reflexivity.
Qed.
(** ways to declare a field of an enumeration that any string extends *)
Definition extensible_as (f : dfield) (e : cid) : Prop := f_type f = YUnion [YCls e; YStr] \/ f_type f = YUnion [YStr; YCls e].
Lemma extensible_required env f e vs : env e = KEnum vs -> extensible_as f e ->
  required_type f = f_type f /\ is_extensible env (required_type f) = true /\ extensible_enum env (required_type f) = Ok e.
Proof.
  intros K D. assert (R : required_type f = f_type f) by (unfold required_type; destruct D as [-> | ->]; reflexivity).
  split; [exact R|]. rewrite R. pose proof (enum_entity_cls _ _ _ K) as EC.
  destruct D as [-> | ->]; unfold is_extensible, extensible_enum, is_type_enum; cbn; rewrite EC; split; reflexivity.
Qed.
(** the table of a class refers to a lookup table *)
Definition refers_to (env : cid -> classdef) (o : copts) (fuel : nat) (c : cid) (f : dfield) (q : qid) : Prop :=
  exists t n, dataclass_to_table env o fuel c = Ok t /\ In (CForeign n [f_name f] q ["id"]) (t_constraints t).

Section Lookup.
Context (env : cid -> classdef) (o : copts) (refs : list cid) (fuel : nat) (topo : list cid -> list cid) (cat : catalog).
Hypothesis HO : ordinary env o refs.
Hypothesis HC : complete env refs.
Hypothesis H : dataclasses_to_catalog env o fuel topo refs = Ok cat.
Context (c e : cid) (f : dfield) (vs : list evalue).
Hypothesis Ic : In c refs.
Hypothesis En : entity env c.
Hypothesis If : In f (data_fields env c).
Hypothesis K : env e = KEnum vs.
Hypothesis L : label_enum vs.

Lemma lookup_exists : (o_enum o = EmRelation /\ required_type f = YCls e) \/ extensible_as f e ->
  exists s t, In (fst e, s) (o_ns o) /\ t_name t = (if o_qualified o then Qualified s (snd e) else Prefixed s (snd e)) /\
    lookup_table cat (t_name t) (if o_init o then Some (map ev_value vs) else None) t /\ refers_to env o fuel c f (t_name t).
Proof.
  intros D. unfold dataclasses_to_catalog in H. apply bind_inv in H as (ets & HE & H'). apply bind_inv in H' as (sts & HS & H'). apply bind_inv in H' as (ts & HTs & H'). 
  assert (EE : is_entity_cls env c = true).
  { destruct En as (fs & a & d & ps & K' & g & Ig & KF). unfold is_entity_cls. rewrite K'. unfold has_key, fields_of. rewrite K'. apply existsb_exists. exists g. split; [exact Ig|].
    destruct KF as (t & ms & F & Im). unfold is_primary_key_type. rewrite F. simpl. apply existsb_exists. exists MPrimary. split; [exact Im|now apply meta_eqb_eq]. }
  pose proof HTs as HT2. unfold all_tables in HT2. apply bind_inv in HT2 as (t1 & T1 & HT2). apply bind_inv in HT2 as (t2 & T2 & HT2). apply bind_inv in HT2 as (xs & HX & HT2). clear HT2.
  assert (IT : In c (table_types env refs)) by (apply tys_in; auto).
  assert (ES : In e (regular_enums env o (table_types env refs) ++ xs)).
  { apply in_app_iff. destruct D as [[OE RT]|D].
    - left. apply regular_in. split; [exact OE|]. exists c, f. split; [exact IT|]. split; [exact If|]. rewrite RT. unfold item_enum. cbn [unwrap]. rewrite (enum_entity_cls _ _ _ K). now left.
    - right. destruct (extensible_required env f e vs K D) as (_ & X1 & X2). eapply extensible_in; eauto. }
  assert (Ie : In e refs) by (eapply (es_refs env o refs HC xs HX); eauto).
  destruct (tables_exist env o refs fuel ts xs HX HTs e Ie (or_intror ES)) as (t & It & Ct).
  assert (ET : enum_table env o fuel e = Ok t).
  { destruct Ct as [[X _]|(_ & _ & X)]; [|exact X]. unfold is_entity_cls in X. rewrite K in X. discriminate. }
  pose proof (catalog_located env o refs fuel HO HC ts xs HX HTs _ _ cat e t H' Ie It Ct) as Loc.
  pose proof (lookup_shape env o fuel e t vs cat ET K L Loc) as Shape.
  destruct (enum_table_facts env o refs fuel HO e t Ie ET) as (Q & _). pose proof Q as Q'. unfold class_qid, qualified_id_of in Q'. apply bind_inv in Q' as (s & Es & Q'). injection Q' as Q'.
  exists s, t. split; [eapply ns_in; eauto|]. split; [symmetry; exact Q'|]. split; [exact Shape|].
  destruct (tables_exist env o refs fuel ts xs HX HTs c Ic (or_introl EE)) as (tc & Itc & Ctc).
  assert (TC : dataclass_to_table env o fuel c = Ok tc).
  { destruct Ctc as [[_ X]|(_ & X & _)]; [exact X|]. unfold is_entity_cls in EE. unfold is_enum_cls in X. destruct (env c); discriminate. }
  assert (KN : exists n, key_name o "fk" c (f_name f) = Ok n).
  { pose proof TC as X. apply table_inv in X as (cols & ks & q & kn & H1 & H2 & H3 & H4 & _). unfold key_name, qualified_prefix. rewrite H3. destruct (o_unique_names o); simpl; eauto. }
  destruct KN as (n & KN). exists tc, n. split; [exact TC|]. eapply (kept_table env o fuel c tc); [apply (ord_fields _ _ _ HO c Ic)|exact TC|congruence|].
  intros cols ks _ HK. unfold table_keys in HK. apply bind_inv in HK as (k1 & U1 & HK). apply bind_inv in HK as (k2 & U2 & HK). apply bind_inv in HK as (k3 & U3 & HK).
  apply bind_inv in HK as (k4 & U4 & HK). apply bind_inv in HK as (k5 & U5 & HK). injection HK as <-. rewrite !in_app_iff.
  destruct D as [[OE RT]|D].
  - right; right; left. rewrite OE in U3. unfold enum_constraints in U3. apply map_res_all2 in U3.
    assert (IE : In f (enum_fields env c)).
    { unfold enum_fields. apply filter_In. split; [exact If|]. rewrite RT. unfold is_type_enum. cbn [unwrap]. now rewrite (enum_entity_cls _ _ _ K). }
    destruct (all2_in_l _ _ _ _ U3 IE) as (y & Iy & Ey). rewrite RT in Ey. unfold enum_class in Ey. cbn [unwrap bind] in Ey. unfold enum_reference in Ey. rewrite KN, Q in Ey. injection Ey as <-. exact Iy.
  - right; left. destruct (extensible_required env f e vs K D) as (_ & X1 & X2). unfold extensible_constraints in U2. apply map_res_all2 in U2.
    assert (IE : In f (filter (fun f => is_extensible env (required_type f)) (fields_of env c))) by (apply filter_In; split; [exact If|exact X1]).
    destruct (all2_in_l _ _ _ _ U2 IE) as (y & Iy & Ey). rewrite X2 in Ey. cbn [bind] in Ey. unfold enum_reference in Ey. rewrite KN, Q in Ey. injection Ey as <-. exact Iy.
Qed.
End Lookup.

Theorem C52_lookup_table_keeps_members env o refs fuel topo cat c e f vs :
  ordinary env o refs -> complete env refs -> dataclasses_to_catalog env o fuel topo refs = Ok cat -> o_enum o = EmRelation ->
  In c refs -> entity env c -> In f (data_fields env c) -> declared_as f (YCls e) -> env e = KEnum vs -> label_enum vs ->
  exists s t, In (fst e, s) (o_ns o) /\ t_name t = (if o_qualified o then Qualified s (snd e) else Prefixed s (snd e)) /\
    lookup_table cat (t_name t) (if o_init o then Some (map ev_value vs) else None) t /\ refers_to env o fuel c f (t_name t).
Proof. intros HO HC H OE Ic En If D K L. eapply lookup_exists; eauto. left. split; [exact OE|]. now apply declared_enum. Qed.
Print Assumptions C52_lookup_table_keeps_members.

(** An enumeration that any string extends becomes such a table, whatever the options. *)
Theorem C52_extensible_keeps_members env o refs fuel topo cat c e f vs :
  ordinary env o refs -> complete env refs -> dataclasses_to_catalog env o fuel topo refs = Ok cat ->
  In c refs -> entity env c -> In f (data_fields env c) -> extensible_as f e -> env e = KEnum vs -> label_enum vs ->
  exists s t, In (fst e, s) (o_ns o) /\ t_name t = (if o_qualified o then Qualified s (snd e) else Prefixed s (snd e)) /\
    lookup_table cat (t_name t) (if o_init o then Some (map ev_value vs) else None) t /\ refers_to env o fuel c f (t_name t).
Proof. intros HO HC H Ic En If D K L. eapply lookup_exists; eauto. Qed.
Print Assumptions C52_extensible_keeps_members.

(** ** Hypotheses are met *)
Definition shop_state : dfield := Fld "state" (YUnion [YCls ("m", "State"); YNone]) DMissing.
Definition shop_mood : dfield := Fld "mood" (YUnion [YCls ("m", "Mood"); YStr]) DMissing.
Example C52_shop_fields :
  In shop_state (data_fields shop ("m", "Person")) /\ declared_as shop_state (YCls ("m", "State")) /\ shop ("m", "State") = KEnum (map EStr ["on"; "off"]) /\
  In shop_mood (data_fields shop ("m", "Person")) /\ extensible_as shop_mood ("m", "Mood") /\ shop ("m", "Mood") = KEnum (map EStr ["good"; "bad"]) /\
  label_enum (map EStr ["on"; "off"]) /\ entity shop ("m", "Person").
Proof.
  split; [simpl; tauto|]. split; [right; left; reflexivity|]. split; [reflexivity|]. split; [simpl; tauto|]. split; [left; reflexivity|]. split; [reflexivity|].
  split; [split; [discriminate|left; eexists; reflexivity]|].
  unfold entity. do 4 eexists. split; [reflexivity|]. eexists. split; [left; reflexivity|]. unfold key_field. cbn [f_type]. do 2 eexists. split; [reflexivity|]. simpl. tauto.
Qed.
Example C52_shop_converted d : In d [DPostgres; DMySQL; DMSSQL; DOracle; DDelta] ->
  exists cat, dataclasses_to_catalog shop (dialect_options d (two_schemas false)) 9 (fun l => l) shop_refs = Ok cat.
Proof. simpl. intros [<-|[<-|[<-|[<-|[<-|[]]]]]]; eexists; vm_compute; reflexivity. Qed.
