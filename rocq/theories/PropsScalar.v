(** C51: the columns of scalar fields hold the declared values. *)
From Verif Require Import PyStr QuoteModel ObjectDict ObjectDictProofs Types Objects Compat CompatSpec CompatProofs Capacity Convert ConvertDialects ConvertSpec ConvertProofs
  CloseSpec CloseProofs1 CloseProofs2 CloseProofs3 CloseProofs4 CloseProofs5 NamesProofs PropsConvert PropsCapacity.
From Coq Require Import Lia.
Open Scope string_scope.

(** a type without parts: [int], [str], [float], ..., [Literal[...]], a class *)
Definition simple_base (t : pytype) : bool :=
  match t with
  | YBool | YInt | YFloat | YStr | YDecimal | YDatetime | YDate | YTime | YTimedelta | YUuid | YJson | YIPv4 | YIPv6 | YLiteral _ | YCls _ => true
  | _ => false
  end.
(** the ways to declare a field of type [B], annotated by [ms], are those of C36: [declared_as] *)
Definition annotated (B : pytype) (ms : list meta) : pytype := match ms with [] => B | _ => YAnn B ms end.

Lemma declared_type f B ms : simple_base B = true -> Forall (fun m => is_constraint m = false) ms -> declared_as f (annotated B ms) ->
  field_type (field_properties (f_type f)) = annotated B ms.
Proof.
  intros SB M D. assert (FI := filter_id ms M).
  assert (UB : unwrap B = B) by (destruct B; try discriminate; reflexivity).
  assert (MB : metadata B = []) by (destruct B; try discriminate; reflexivity).
  assert (U : unwrap (annotated B ms) = B) by (destruct ms; [exact UB|reflexivity]).
  assert (MM : metadata (annotated B ms) = ms) by (destruct ms; [exact MB|reflexivity]).
  assert (DD : drop_default B = B) by (destruct B; try discriminate; reflexivity).
  assert (OB : is_optional B = false) by (destruct B; try discriminate; reflexivity).
  assert (NB : is_none (annotated B ms) = false) by (destruct ms, B; try discriminate; reflexivity).
  assert (DB : is_default_tag (annotated B ms) = false) by (destruct ms, B; try discriminate; reflexivity).
  assert (MA : mk_ann B ms = annotated B ms) by (destruct ms; [reflexivity|destruct B; try discriminate; reflexivity]).
  destruct D as [-> | [-> | [-> | (tags & T & ->)]]].
  - unfold field_properties. rewrite U, DD, OB, MM, MB, app_nil_r. unfold field_type. cbn [p_plain p_meta]. now rewrite UB, FI.
  - destruct ms as [|m ms]; cbn [annotated] in *.
    + destruct B; try discriminate; reflexivity.
    + unfold field_properties, field_type. simpl. inversion M as [|? ? M1 M2]; subst. rewrite M1. simpl. rewrite (filter_id ms M2). destruct B; try discriminate; reflexivity.
  - destruct ms as [|m ms]; cbn [annotated] in *.
    + destruct B; try discriminate; reflexivity.
    + unfold field_properties, field_type. simpl. inversion M as [|? ? M1 M2]; subst. rewrite M1. simpl. rewrite (filter_id ms M2). destruct B; try discriminate; reflexivity.
  - rewrite U, MM. unfold field_properties. cbn [unwrap metadata]. rewrite DD, OB, MB, app_nil_r, UB. unfold field_type. cbn [p_plain p_meta].
    now rewrite tags_filtered.
Qed.
Lemma declared_scalar env o f B ms : simple_base B = true -> declared_as f (annotated B ms) -> relationship env o (f_type f) = None.
Proof.
  intros SB [-> | [-> | [-> | (tags & T & ->)]]]; destruct ms; destruct B; try discriminate; reflexivity.
Qed.
Lemma field_column env o fuel c fs a d ps t f T : sane_options o -> env c = KData fs a d ps -> NoDup (map f_name fs) ->
  dataclass_to_table env o fuel c = Ok t -> In f fs -> field_type (field_properties (f_type f)) = T -> relationship env o (f_type f) = None ->
  exists k, In k (t_columns t) /\ c_name k = f_name f /\ member_sql env o fuel T = Ok (c_type k) /\
            exists cols ks, table_columns env o fuel c = Ok cols /\ table_keys env o c cols = Ok ks /\ In k cols /\ t_constraints t = od_make k_name ks /\ t_columns t = cols.
Proof.
  intros S E ND H I FT R. apply table_inv in H as (cols & ks & q & k & H1 & H2 & H3 & H4 & ->).
  assert (DF : data_fields env c = fs) by (unfold data_fields; now rewrite E).
  unfold make_table. cbn [t_columns t_constraints]. rewrite (table_columns_ok env o S fuel c cols) by (rewrite ?DF; auto).
  pose proof H1 as HC. unfold table_columns in H1. assert (I' : In f (column_fields env o c)).
  { unfold column_fields, fields_of. rewrite E. apply filter_In. split; auto. now rewrite R. }
  destruct (all2_in_l _ _ _ _ (map_res_all2 _ _ _ H1) I') as (col & IC & HX). exists col. split; auto.
  split; [eapply member_column_name; eauto|]. unfold member_column in HX. binds HX. binds HX. injection HX as <-. split; [simpl; congruence|].
  exists cols, ks. auto.
Qed.
(** the same for a declared field *)
Lemma scalar_column env o fuel c fs a d ps t f B ms : sane_options o -> env c = KData fs a d ps -> NoDup (map f_name fs) ->
  dataclass_to_table env o fuel c = Ok t -> In f fs -> simple_base B = true -> Forall (fun m => is_constraint m = false) ms -> declared_as f (annotated B ms) ->
  exists k, In k (t_columns t) /\ c_name k = f_name f /\ member_sql env o fuel (annotated B ms) = Ok (c_type k).
Proof.
  intros S E ND H I SB M D.
  destruct (field_column env o fuel c fs a d ps t f (annotated B ms) S E ND H I) as (k & A1 & A2 & A3 & _);
    [now apply declared_type|eapply declared_scalar; eauto|]. exists k. auto.
Qed.

(** ** Integers *)
(** A field declared as [int] becomes a column that stores every 64-bit integer, with or without [None], as a key or not. *)
Theorem C51_int_is_64_bit d e g env fuel c fs a doc ps t f :
  engine_of d = Some e -> sane_options (dialect_options d g) -> env c = KData fs a doc ps -> NoDup (map f_name fs) ->
  dataclass_to_table env (dialect_options d g) fuel c = Ok t -> In f fs -> declared_as f YInt ->
  exists k, In k (t_columns t) /\ c_name k = f_name f /\ stores_all e k (- 2 ^ 63) (2 ^ 63 - 1).
Proof.
  intros HE S E ND H I D.
  destruct (scalar_column env _ fuel c fs a doc ps t f YInt [] S E ND H I) as (k & A1 & A2 & A3); auto.
  exists k. split; auto. split; auto. destruct fuel as [|n]; [discriminate|]. cbn [annotated] in A3.
  unfold stores_all. destruct d; try discriminate; injection HE as <-; cbv [member_sql subst dialect_options o_subst substitutions find fst py_eqb is_simple simple_sql value_sql basic_sql bind] in A3;
    injection A3 as A3; rewrite <- A3; eexists; eexists; (split; [reflexivity|]); (split; [vm_compute; reflexivity|]); intros z Hz; simpl; lia.
Qed.
Print Assumptions C51_int_is_64_bit.

(** ** Texts *)
(** A field declared as [str] with a largest length: the column stores every text of up to that length, if the server
    accepts the column at all (C31 says when; texts of one-byte characters, see C31 for the others). *)
Definition stores_texts (e : engine) (k : column) (n : Z) : Prop :=
  forall s cap, type_str (c_type k) = Ok s -> server_type e s = Some cap ->
  forall x, text_ok x -> ascii_only x -> (chars x <= n)%Z -> (chars x <= most_text e)%Z -> fits_text cap x.
Lemma limited_text d e g env n m s : engine_of d = Some e -> g_skip g (MMaxLength n) = false ->
  member_sql env (dialect_options d g) m (YAnn YStr [MMaxLength n]) = Ok s -> s = text_type e (Some n).
Proof.
  intros HE SK H. destruct m as [|m]; [discriminate|]. cbn [member_sql] in H.
  destruct d; try discriminate; injection HE as <-; unfold subst, dialect_options, o_subst, substitutions, find, fst, py_eqb in H; cbn [is_simple] in H;
    unfold simple_sql, value_sql, subst, dialect_options, o_subst, substitutions, find, fst, py_eqb, basic_sql, fixed_sql, same_object, py_eqb in H;
    cbn in H; rewrite SK in H; cbn in H; now injection H as <-.
Qed.
Theorem C51_text_limit d e g env fuel c fs a doc ps t f n :
  engine_of d = Some e -> sane_options (dialect_options d g) -> env c = KData fs a doc ps -> NoDup (map f_name fs) ->
  dataclass_to_table env (dialect_options d g) fuel c = Ok t -> In f fs -> declared_as f (YAnn YStr [MMaxLength n]) -> g_skip g (MMaxLength n) = false ->
  exists k, In k (t_columns t) /\ c_name k = f_name f /\ stores_texts e k n /\ c_type k = text_type e (Some n).
Proof.
  intros HE S E ND H I D SK.
  destruct (scalar_column env _ fuel c fs a doc ps t f YStr [MMaxLength n] S E ND H I) as (k & A1 & A2 & A3); auto.
  cbn [annotated] in A3. apply (limited_text d e g env n fuel _ HE SK) in A3. exists k. split; auto. split; auto. split; [|auto]. unfold stores_texts. rewrite A3.
  intros s cap TS ST x X1 X2 X3 X4. exact (C31_text_wide_enough e n s cap x TS ST X1 X2 X3 X4).
Qed.
Print Assumptions C51_text_limit.

(** A field declared as [str]: the column is accepted and stores every text that the server can store at all; on MySQL, texts
    of up to 2^24 - 1 characters. *)
Theorem C51_unlimited_text d e g env fuel c fs a doc ps t f :
  engine_of d = Some e -> sane_options (dialect_options d g) -> env c = KData fs a doc ps -> NoDup (map f_name fs) ->
  dataclass_to_table env (dialect_options d g) fuel c = Ok t -> In f fs -> declared_as f YStr ->
  exists k s cap, In k (t_columns t) /\ c_name k = f_name f /\ type_str (c_type k) = Ok s /\ server_type e s = Some cap /\
    forall x, text_ok x -> ascii_only x -> (chars x <= match e with MySQL => 2 ^ 24 - 1 | _ => most_text e end)%Z -> fits_text cap x.
Proof.
  intros HE S E ND H I D.
  destruct (scalar_column env _ fuel c fs a doc ps t f YStr [] S E ND H I) as (k & A1 & A2 & A3); auto.
  destruct fuel as [|n]; [discriminate|]. cbn [annotated] in A3. exists k.
  assert (X : c_type k = match e with MySQL => text_type MySQL (Some 16777215%Z) | _ => text_type e None end).
  { destruct d; try discriminate; injection HE as <-; cbv [member_sql subst dialect_options o_subst substitutions find fst py_eqb is_simple simple_sql value_sql basic_sql bind] in A3;
    injection A3 as A3; now rewrite <- A3. }
  rewrite X. destruct e.
  - destruct C31_mysql_plain_text as (s & cap & B1 & B2 & B3). exists s, cap. repeat (split; auto).
  - destruct (C31_unlimited_text SQLServer) as (s & cap & B1 & B2 & B3); [discriminate|]. exists s, cap. repeat (split; auto).
  - destruct (C31_unlimited_text Oracle) as (s & cap & B1 & B2 & B3); [discriminate|]. exists s, cap. repeat (split; auto).
  - destruct (C31_unlimited_text PostgreSQL) as (s & cap & B1 & B2 & B3); [discriminate|]. exists s, cap. repeat (split; auto).
Qed.
Print Assumptions C51_unlimited_text.

(** ** Literals *)
(** A field whose values are given texts: the column stores each of them (PostgreSQL, MySQL, SQL Server, Oracle), and is of
    fixed length: that of the longest. *)
Definition str_len (v : pyval) : Z := match v with PStr s => Z.of_nat (String.length s) | _ => 0 end.
Lemma compat_fix a b : compat2 (TFixChar (Some a)) (TFixChar (Some b)) = Ok (TFixChar (Some (Z.max a b))).
Proof.
  unfold compat2. destruct (type_eqb _ _) eqn:E; [|reflexivity]. apply type_eqb_eq in E. injection E as ->. now rewrite Z.max_id.
Qed.
Lemma reduce_fix l : forall a, reduce_from (TFixChar (Some a)) (map (fun v => TFixChar (Some (str_len v))) l) = Ok (TFixChar (Some (fold_left Z.max (map str_len l) a))).
Proof. induction l as [|v l IH]; intros a; [reflexivity|]. cbn [map reduce_from fold_left]. rewrite compat_fix. cbn [bind]. apply IH. Qed.
Lemma fold_max l : forall a, (a <= fold_left Z.max l a)%Z /\ (forall x, In x l -> (x <= fold_left Z.max l a)%Z) /\ (fold_left Z.max l a = a \/ In (fold_left Z.max l a) l).
Proof.
  induction l as [|y l IH]; intros a; cbn [fold_left]; [split; [lia|split; [intros x []|now left]]|].
  destruct (IH (Z.max a y)) as (A & B & C). split; [lia|]. split.
  - intros x [<-|I]; [lia|auto].
  - destruct C as [C|C]; [|right; now right]. destruct (Z.max_spec a y) as [[_ M]|[_ M]]; rewrite M in C at 2; [right; left; congruence|left; congruence].
Qed.
Theorem C51_literals_fit d g env fuel c fs a doc ps t f ws :
  sane_options (dialect_options d g) -> env c = KData fs a doc ps -> NoDup (map f_name fs) ->
  dataclass_to_table env (dialect_options d g) fuel c = Ok t -> In f fs -> declared_as f (YLiteral (map PStr ws)) ->
  exists k n, In k (t_columns t) /\ c_name k = f_name f /\ c_type k = TFixChar (Some n) /\
    (forall w, In w ws -> (Z.of_nat (String.length w) <= n)%Z) /\ (exists w, In w ws /\ n = Z.of_nat (String.length w)).
Proof.
  intros S E ND H I D.
  destruct (scalar_column env _ fuel c fs a doc ps t f (YLiteral (map PStr ws)) [] S E ND H I) as (k & A1 & A2 & A3); auto.
  exists k. destruct fuel as [|n]; [discriminate|]. cbn [annotated] in A3. unfold member_sql in A3.
  assert (SU : subst (dialect_options d g) (YLiteral (map PStr ws)) = None) by (unfold subst; destruct d; reflexivity). rewrite SU in A3.
  cbn [is_simple literals_of unwrap entity_of dataclass_of forward_of] in A3.
  change (entity_of env (YLiteral (map PStr ws))) with (@None cid) in A3. change (dataclass_of env (YLiteral (map PStr ws))) with (@None cid) in A3. cbv beta iota in A3.
  assert (AL : forallb (fun v => match v with PStr _ => true | _ => false end) (map PStr ws) = true) by (clear; induction ws; auto).
  rewrite AL in A3. destruct ws as [|w ws]; [discriminate|].
  assert (EM : map (fun v => TFixChar (Some (Z.of_nat (match v with PStr s => String.length s | _ => O end)))) (map PStr (w :: ws)) =
               map (fun v => TFixChar (Some (str_len v))) (map PStr (w :: ws))) by (rewrite !map_map; reflexivity).
  rewrite EM in A3. cbn [map compatible_type] in A3. rewrite reduce_fix in A3. injection A3 as A3. destruct (fold_max (map str_len (map PStr ws)) (str_len (PStr w))) as (F1 & F2 & F3).
  assert (MM : map str_len (map PStr ws) = map (fun x => Z.of_nat (String.length x)) ws) by (rewrite map_map; reflexivity). rewrite MM in A3, F1, F2, F3. clear MM.
  eexists. split; [exact A1|]. split; [exact A2|]. split; [symmetry; exact A3|]. split.
  - intros x [<-|Ix]; [exact F1|]. apply F2. apply in_map_iff. exists x. auto.
  - destruct F3 as [F3|F3]; [exists w; split; [now left|exact F3]|]. apply in_map_iff in F3 as (x & Ex & Ix). exists x. split; [now right|symmetry; exact Ex].
Qed.
Print Assumptions C51_literals_fit.

(** ** Ranges *)
(** where the CHECK constraints of a class come from *)
Lemma check_source env o fuel c cols ks n s : table_columns env o fuel c = Ok cols -> table_keys env o c cols = Ok ks -> In (CCheck n s) ks ->
  (exists f vs, In f (enum_fields env c) /\ key_name o "ch" c (f_name f) = Ok n /\ map_res (fun e => constant (ev_value e)) (enum_values env (required_type f)) = Ok vs /\
     s = (local_quoted (f_name f) ++ " IN (" ++ join_str ", " vs ++ ")")%string) \/
  (exists col, In col cols /\ check_condition col = Some s /\ key_name o "ch" c (c_name col) = Ok n).
Proof.
  intros HC H J. unfold table_keys in H. binds H. binds H. binds H. binds H. binds H. injection H as <-. repeat (apply in_app_iff in J as [J|J]).
  - destruct (o_foreign o) eqn:OF; [|injection E as <-; destruct J]. unfold class_constraints in E. binds E. binds E. injection E as <-.
    apply in_app_iff in J as [J|J].
    + unfold unique_constraints in E4. binds E4. injection E4 as <-. destruct (in_concat_ok _ _ _ _ E J) as (f & r & If & Ef & Ir).
      destruct (p_unique _); [|injection Ef as <-; destruct Ir]. binds Ef. injection Ef as <-. destruct Ir as [Ir|[]]. discriminate.
    + rewrite OF in E5. binds E5. injection E5 as <-. destruct (in_concat_ok _ _ _ _ E J) as (f & r & If & Ef & Ir).
      unfold field_reference in Ef. binds Ef. binds Ef. injection Ef as <-. apply in_app_iff in Ir as [Ir|Ir].
      * destruct (entity_of env (required_type f)) eqn:En; [|injection E5 as <-; destruct Ir]. binds E5. binds E5. injection E5 as <-. destruct Ir as [Ir|[]]. discriminate.
      * destruct (is_union (required_type f)); [|injection E6 as <-; destruct Ir]. destruct (forallb _ _); [|injection E6 as <-; destruct Ir].
        binds E6. binds E6. injection E6 as <-. destruct Ir as [Ir|[]]. discriminate.
  - unfold extensible_constraints in E0. apply map_res_all2 in E0. destruct (all2_in_r _ _ _ _ E0 J) as (f & If & Ef).
    binds Ef. unfold enum_reference in Ef. binds Ef. binds Ef. discriminate.
  - destruct (o_enum o); try (injection E1 as <-; destruct J). unfold enum_constraints in E1. apply map_res_all2 in E1.
    destruct (all2_in_r _ _ _ _ E1 J) as (f & If & Ef). binds Ef. unfold enum_reference in Ef. binds Ef. binds Ef. discriminate.
  - left. destruct (o_enum o); try (injection E2 as <-; destruct J). destruct (o_check o); [|injection E2 as <-; destruct J].
    unfold enum_checks in E2. apply map_res_all2 in E2. destruct (all2_in_r _ _ _ _ E2 J) as (f & If & Ef).
    apply bind_inv in Ef as (vs & Ev & Ef). apply bind_inv in Ef as (x & Ex & Ef). injection Ef as <- <-. exists f, vs. auto.
  - right. unfold column_checks in E3. binds E3. injection E3 as <-. destruct (in_concat_ok _ _ _ _ E4 J) as (col & r & If & Ef & Ir).
    destruct (check_condition col) eqn:CC; [|injection Ef as <-; destruct Ir]. binds Ef. injection Ef as <-. destruct Ir as [Ir|[]]. injection Ir as <- <-.
    exists col. auto.
Qed.
Lemma same_column env o fuel c cols k k' : NoDup (map f_name (data_fields env c)) -> table_columns env o fuel c = Ok cols -> In k cols -> In k' cols -> c_name k = c_name k' -> k = k'.
Proof.
  intros ND H I I' E. unfold table_columns in H. apply map_res_all2 in H.
  destruct (all2_in_r _ _ _ _ H I) as (f & If & Ef). destruct (all2_in_r _ _ _ _ H I') as (f' & If' & Ef').
  assert (f = f').
  { apply (field_eq env c ND); [now apply filter_In in If|now apply filter_In in If'|]. apply column_name_type in Ef as [Ef _]. apply column_name_type in Ef' as [Ef' _]. congruence. }
  subst f'. congruence.
Qed.
(** constraint text, as a condition on the value [z] of the column *)
Lemma range_kept env o fuel c cols ks f k s : NoDup (map f_name (data_fields env c)) -> table_columns env o fuel c = Ok cols -> table_keys env o c cols = Ok ks ->
  In f (data_fields env c) -> is_type_enum env (required_type f) = false -> In k cols -> c_name k = f_name f -> check_condition k = Some s ->
  exists n, In (CCheck n s) (od_make k_name ks).
Proof.
  intros ND HC HK If NE Ik Nk CC. pose proof HK as H. unfold table_keys in H. binds H. binds H. binds H. binds H. binds H. injection H as H.
  unfold column_checks in E3. binds E3. injection E3 as <-. pose proof E4 as E5. apply map_res_all2 in E4. destruct (all2_in_l _ _ _ _ E4 Ik) as (r & Ir & Er).
  rewrite CC in Er. apply bind_inv in Er as (n & Kn & Er). injection Er as <-. exists n. apply make_keep.
  - rewrite <- H. rewrite !in_app_iff. right. right. right. right. apply in_concat. exists [CCheck n s]. split; [exact Ir|now left].
  - intros y Iy Ey. pose proof (sources env o fuel c cols ks y HC HK Iy) as Sy.
    rewrite Nk in Kn.
    assert (SC : source env o c (CCheck n s)) by (eapply so_check; eauto).
    destruct y as [un ucs|fn fcs fq fr|dn dcs drs|cn cs].
    1-3: symmetry; apply (same_name env o c ND) with (k := _) (k' := CCheck n s); auto; intros ? ?; discriminate.
    cbn [k_name] in Ey. subst cn. destruct (check_source env o fuel c cols ks n cs HC HK Iy) as [(g & vs & Ig & Kg & _)|(col & Ic & Cc & Kc)].
    + exfalso. unfold enum_fields in Ig. apply filter_In in Ig as [Ig Xg].
      destruct (key_name_eq env o c ND "ch" f "ch" g n If Ig Kn Kg) as [_ ->]; [unfold tags; simpl; tauto..|]. congruence.
    + assert (c_name col = f_name f).
      { apply key_name_form in Kn as (p & P & Pn). apply key_name_form in Kc as (p' & P' & Pn'). assert (p' = p) by congruence. subst p'. rewrite Pn in Pn'.
        simpl in Pn'. injection Pn' as Pn'. apply app_left in Pn'. simpl in Pn'. now injection Pn' as Pn'. }
      assert (col = k) by (eapply same_column; eauto; congruence). subst col. congruence.
Qed.

(** A field declared as [int] with a smallest and a largest value: the column stores all of them that have 64 bits, and the
    table has a CHECK constraint of exactly these bounds, whatever the options. *)
Theorem C51_integer_range d e g env fuel c fs a doc ps t f lo hi :
  engine_of d = Some e -> sane_options (dialect_options d g) -> env c = KData fs a doc ps -> NoDup (map f_name fs) ->
  dataclass_to_table env (dialect_options d g) fuel c = Ok t -> In f fs -> declared_as f (YAnn YInt [MRange lo hi]) -> g_skip g (MRange lo hi) = false ->
  exists k n, In k (t_columns t) /\ c_name k = f_name f /\ stores_all e k (- 2 ^ 63) (2 ^ 63 - 1) /\
    In (CCheck n ("(" ++ local_quoted (f_name f) ++ " >= " ++ z_to_str lo ++ ") AND (" ++ local_quoted (f_name f) ++ " <= " ++ z_to_str hi ++ ")")) (t_constraints t).
Proof.
  intros HE S E ND H I D SK.
  assert (DF : data_fields env c = fs) by (unfold data_fields; now rewrite E).
  assert (FT : field_type (field_properties (f_type f)) = YAnn YInt [MRange lo hi]) by (apply (declared_type f YInt [MRange lo hi]); auto).
  destruct (field_column env _ fuel c fs a doc ps t f _ S E ND H I FT) as (k & A1 & A2 & A3 & cols & ks & B1 & B2 & B3 & B4 & B5);
    [apply (declared_scalar env _ f YInt [MRange lo hi]); auto|].
  assert (X : c_type k = match e with Oracle => TSub OraInt (TInt 8 true (Some lo) (Some hi)) | _ => TInt 8 true (Some lo) (Some hi) end).
  { destruct fuel as [|m]; [discriminate|]. cbn [member_sql] in A3.
    destruct d; try discriminate; injection HE as <-; unfold subst, dialect_options, o_subst, substitutions, find, fst, py_eqb in A3; cbn [is_simple] in A3;
    unfold simple_sql, value_sql, subst, dialect_options, o_subst, substitutions, find, fst, py_eqb, basic_sql, fixed_sql, same_object, py_eqb in A3;
    cbn in A3; rewrite SK in A3; cbn in A3; now injection A3 as <-. }
  assert (CC : check_condition k = Some ("(" ++ local_quoted (f_name f) ++ " >= " ++ z_to_str lo ++ ") AND (" ++ local_quoted (f_name f) ++ " <= " ++ z_to_str hi ++ ")")).
  { unfold check_condition. rewrite X, A2. destruct e; cbn [base_type app map join_str]; f_equal; simpl; rewrite ?app_assoc_s; reflexivity. }
  assert (RT : is_type_enum env (required_type f) = false) by (unfold required_type; rewrite FT; reflexivity).
  destruct (range_kept env _ fuel c cols ks f k _ ltac:(now rewrite DF) B1 B2 ltac:(now rewrite DF) RT B3 A2 CC) as (n & In1).
  exists k, n. split; [exact A1|]. split; [exact A2|]. split; [|now rewrite B4].
  unfold stores_all. rewrite X. destruct e; (eexists; eexists; split; [reflexivity|]; split; [vm_compute; reflexivity|]); intros z Hz; simpl; lia.
Qed.
Print Assumptions C51_integer_range.

(** Hypotheses are met. *)
Definition item_class : list dfield :=
  [Fld "id" (YAnn YInt [MPrimary]) DMissing; Fld "label" (YAnn YStr [MMaxLength 64; MUnique]) DMissing; Fld "note" (YUnion [YStr; YNone]) DMissing;
   Fld "amount" (YUnion [YAnn YInt [MRange 1 99]; YNone]) DMissing; Fld "status" (YLiteral (map PStr ["on"; "off"])) (DVal (PStr "on"))].
Definition items_env : cid -> classdef := fun c => if cid_eqb c ("m", "Item") then KData item_class false None [] else KOther.
Example C51_item_declared :
  exists f1 f2 f3 f4 f5, item_class = [f1; f2; f3; f4; f5] /\ declared_as f1 YInt /\ declared_as f2 (YAnn YStr [MMaxLength 64]) /\ declared_as f3 YStr /\
    declared_as f4 (YAnn YInt [MRange 1 99]) /\ declared_as f5 (YLiteral (map PStr ["on"; "off"])).
Proof.
  do 5 eexists. split; [reflexivity|]. repeat split.
  - right; right; right. exists [MPrimary]. split; [repeat constructor; now left|reflexivity].
  - right; right; right. exists [MUnique]. split; [repeat constructor; now right|reflexivity].
  - right; now left.
  - right; now left.
  - now left.
Qed.
Example C51_item_converted d : In d [DPostgres; DMySQL; DMSSQL; DOracle] ->
  sane_options (dialect_options d plain_user) /\ NoDup (map f_name item_class) /\
  exists t, dataclass_to_table items_env (dialect_options d plain_user) 3 ("m", "Item") = Ok t /\ length (t_columns t) = 5%nat /\
    exists n, In (CCheck n "(""amount"" >= 1) AND (""amount"" <= 99)") (t_constraints t).
Proof.
  intros I. split; [apply dialects_sane; intros m n [[= <- <-]|[]]; split; discriminate|].
  split; [simpl; repeat (constructor; [simpl; intuition discriminate|]); constructor|].
  simpl in I. destruct I as [<-|[<-|[<-|[<-|[]]]]]; (eexists; split; [reflexivity|]; split; [reflexivity|]; eexists; simpl; tauto).
Qed.
