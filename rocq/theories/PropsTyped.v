(** C64: on SQL Server and Oracle, parameters are declared with the types of their columns. *)
From Verif Require Import PyStr QuoteModel ObjectDict ObjectDictProofs Types Objects Ddl Render Dml RowSpec DmlSpec TablePredProofs
  DmlProofs DmlProofs2 DmlProofs3 SqlText TextSpec DmlText DmlTextSpec DmlTextProofs PropsDml PropsDmlText Capacity Typed TypedSpec TextProofs1.
From Verif Require PropsCapacity PgProofs1.
From Coq Require Import Lia Arith ZArith.
Open Scope string_scope.
Open Scope list_scope.

(** the dialects whose drivers are told the types of parameters *)
Definition typed (d : Ddl.dialect) : Prop := d = DMSSQL \/ d = DOracle.

Lemma get_columns_members t order cs : NoDup (map c_name (t_columns t)) -> get_columns t order = Ok cs -> forall c, In c cs -> In c (t_columns t).
Proof.
  intros N E. destruct order as [ns|]; [|injection E as <-; auto]. apply (get_columns_named t ns cs N) in E. apply E.
Qed.
Lemma inputs_declared d t cs l : typed d -> (forall c, In c cs -> In c (t_columns t)) ->
  map_res (fun c => match input_of d (c_type c) with Some i => Ok i | None => Err "TypeError" end) cs = Ok l ->
  declared d t (map c_name cs) (seq 1 (length cs)) l.
Proof.
  intros _ M H. apply PgProofs1.map_res_forall2 in H. split; [rewrite seq_length; symmetry; clear M; induction H; cbn; congruence|].
  intros n c p Ec Ep.
  destruct (nth_error cs n) as [k|] eqn:Ek; [|apply nth_error_None in Ek; assert (X : nth_error (map c_name cs) n = None) by (apply nth_error_None; now rewrite map_length); congruence].
  rewrite (map_nth_error c_name n cs Ek) in Ec. injection Ec as <-.
  assert (L : (n < length cs)%nat) by (apply nth_error_Some; congruence).
  assert (P : p = S n). { apply (nth_error_nth _ _ O) in Ep. rewrite seq_nth in Ep by exact L. lia. } subst p. split; [lia|].
  cbn [Nat.sub]. rewrite Nat.sub_0_r. exists k.
  assert (X : exists i, nth_error l n = Some i /\ input_of d (c_type k) = Some i).
  { clear - H Ek. revert n Ek. induction H as [|x y cs l H F IH]; intros [|n] Ek; try discriminate Ek; cbn in *.
    - injection Ek as ->. exists y. destruct (input_of d (c_type k)); [|discriminate H]. injection H as ->. auto.
    - exact (IH n Ek). }
  destruct X as (i & Ei & Hi). exists i. split; [apply M; eapply nth_error_In; exact Ek|auto].
Qed.
Lemma typed_merge d : typed d -> by_merge d.
Proof. intros [-> | ->]; split; discriminate. Qed.
Lemma execute_typed_ok d s t order s' l : typed d -> execute_typed d s t order = Ok (s', l) ->
  s' = s /\ exists cs, get_columns t order = Ok cs /\ map_res (fun c => match input_of d (c_type c) with Some i => Ok i | None => Err "TypeError" end) cs = Ok l.
Proof.
  intros [-> | ->] H; cbn [execute_typed] in H; destruct (get_columns t order) as [cs|]; try discriminate H; cbn [bind] in H;
    match type of H with bind ?m _ = _ => destruct m as [l'|] eqn:E end; try discriminate H; injection H as <- <-; (split; [reflexivity|]); exists cs; auto.
Qed.

(** Records for an upsert: each parameter of the MERGE statement, as the server reads it, is declared with the type of its column. *)
Theorem C64_upsert : forall d t fields cs s inputs, typed d -> name_ok (t_name t) -> NoDup (map c_name (t_columns t)) ->
  get_columns t (order_of fields) = Ok cs -> (exists c, In c (map c_name cs) /\ lookup_key t c) -> (exists c, plain cs c) ->
  upsert_call d t fields = Ok (s, inputs) ->
  exists params on upd ins, read_data d (render_dml d s) = Some (RMerge (table_of t) (map c_name cs) params on upd ins) /\
    declared d t (map c_name cs) params inputs.
Proof.
  intros d t fields cs s inputs D Q N E K P H. unfold upsert_call in H. destruct (upsert_stmt d t (order_of fields)) as [s0|] eqn:U; [|discriminate H].
  cbn [bind] in H. apply (execute_typed_ok _ _ _ _ _ _ D) in H as (-> & cs' & E' & M). rewrite E in E'. injection E' as <-.
  destruct (C56_upsert_by_merge d t _ cs s0 Q (typed_merge d D) E K P U) as (keys & upd & ins & _ & _ & _ & R).
  do 4 eexists. split; [exact R|]. apply inputs_declared; [exact D|exact (get_columns_members t _ cs N E)|exact M].
Qed.
Print Assumptions C64_upsert.

(** The columns that these statements are about are those that the caller names, in this order (an empty text stands for a field of the records
    that is not stored), and all columns if the caller names none. *)
Definition named (fields : option (list string)) (t : table) (cols : list string) : Prop :=
  match fields with
  | None | Some [] => cols = map c_name (t_columns t)
  | Some l => cols = filter (fun n => if String.string_dec n "" then false else true) l /\ forall c, In c cols -> In c (map c_name (t_columns t))
  end.
Theorem C64_named_columns : forall d t fields s inputs, typed d -> NoDup (map c_name (t_columns t)) ->
  insert_call d t fields = Ok (s, inputs) \/ upsert_call d t fields = Ok (s, inputs) ->
  exists cs, get_columns t (order_of fields) = Ok cs /\ named fields t (map c_name cs).
Proof.
  intros d t fields s inputs D N H. assert (X : exists cs, get_columns t (order_of fields) = Ok cs).
  { destruct H as [H|H]; [unfold insert_call in H; destruct (insert_stmt t (order_of fields)); [|discriminate H]|unfold upsert_call in H; destruct (upsert_stmt d t (order_of fields)); [|discriminate H]];
      cbn [bind] in H; apply (execute_typed_ok _ _ _ _ _ _ D) in H as (_ & cs & E & _); eauto. }
  destruct X as (cs & E). exists cs. split; [exact E|]. destruct fields as [[|n l]|]; cbn [order_of named] in *; [now injection E as <-| |now injection E as <-].
  apply (get_columns_named t _ cs N) in E as [E M]. rewrite E. split.
  - apply filter_ext. intros x. destruct (String.string_dec x "") as [-> | X]; [reflexivity|]. now apply String.eqb_neq in X as ->.
  - intros c I. rewrite <- E in I. apply in_map_iff in I as (k & <- & I). apply in_map. now apply M.
Qed.
Print Assumptions C64_named_columns.

(** Keys for a delete *)
Theorem C64_delete : forall d t s inputs, typed d -> name_ok (t_name t) -> NoDup (map c_name (t_columns t)) ->
  delete_call d t = Ok (s, inputs) ->
  exists k, t_pk t = [k] /\ read_data d (render_dml d s) = Some (RDelete (table_of t) k 1) /\ declared d t [k] [1%nat] inputs.
Proof.
  intros d t s inputs D Q N H. unfold delete_call in H. destruct (delete_stmt t) as [s0|] eqn:U; [|discriminate H]. cbn [bind] in H.
  destruct (get_primary_column t) as [c|] eqn:G; [|discriminate H]. cbn [bind] in H.
  apply (execute_typed_ok _ _ _ _ _ _ D) in H as (-> & cs & E & M).
  destruct (C56_delete d t s0 Q N U) as (k & Pk & R). apply (get_primary_column_ok t c N) in G as [Ic Pc]. rewrite Pk in Pc. injection Pc as ->.
  exists (c_name c). split; [exact Pk|]. split; [exact R|].
  pose proof (proj1 (get_columns_named t _ cs N) E) as [Em Mm]. pose proof (inputs_declared d t cs inputs D Mm M) as X. rewrite Em in X.
  assert (L : length cs = 1%nat) by (rewrite <- (map_length c_name), Em; reflexivity). rewrite L in X. exact X.
Qed.
Print Assumptions C64_delete.

(** Records for an insert, provided that no generated column is among the fields *)
Theorem C64_insert : forall d t fields cs s inputs, typed d -> name_ok (t_name t) -> NoDup (map c_name (t_columns t)) ->
  get_columns t (order_of fields) = Ok cs -> cs <> [] -> (forall c, In c cs -> c_identity c = false) ->
  insert_call d t fields = Ok (s, inputs) ->
  exists params, read_data d (render_dml d s) = Some (RInsert (table_of t) (map c_name cs) params Fail) /\ declared d t (map c_name cs) params inputs.
Proof.
  intros d t fields cs s inputs D Q N E NE G H. unfold insert_call in H. destruct (insert_stmt t (order_of fields)) as [s0|] eqn:U; [|discriminate H].
  cbn [bind] in H. apply (execute_typed_ok _ _ _ _ _ _ D) in H as (-> & cs' & E' & M). rewrite E in E'. injection E' as <-.
  assert (P : exists c, plain cs c).
  { destruct cs as [|c cs]; [congruence|]. exists (c_name c). exists c. split; [now left|]. split; [reflexivity|]. apply G. now left. }
  pose proof (C56_insert d t _ cs s0 Q E P U) as R. cbn zeta in R.
  assert (F : filter (fun c => negb (c_identity c)) cs = cs).
  { clear - G. induction cs as [|c cs IH]; [reflexivity|]. cbn. rewrite (G c (or_introl eq_refl)). cbn. now rewrite IH by (intros x I; apply G; now right). }
  rewrite F, map_length in R. eexists. split; [exact R|]. apply inputs_declared; [exact D|exact (get_columns_members t _ cs N E)|exact M].
Qed.
Print Assumptions C64_insert.
(** ... and only then: otherwise the statement has fewer parameters than are declared. *)
Theorem C64_insert_count : forall d t fields cs s inputs r cols params dup, typed d -> name_ok (t_name t) ->
  get_columns t (order_of fields) = Ok cs -> insert_call d t fields = Ok (s, inputs) ->
  read_data d (render_dml d s) = Some (RInsert r cols params dup) -> (exists c, plain cs c) ->
  (length inputs = length params <-> forall c, In c cs -> c_identity c = false).
Proof.
  intros d t fields cs s inputs r cols params dup D Q E H R P. unfold insert_call in H. destruct (insert_stmt t (order_of fields)) as [s0|] eqn:U; [|discriminate H].
  cbn [bind] in H. apply (execute_typed_ok _ _ _ _ _ _ D) in H as (-> & cs' & E' & M). rewrite E in E'. injection E' as <-.
  rewrite (C56_insert d t _ cs s0 Q E P U) in R. injection R as <- <- <- <-. rewrite seq_length, map_length.
  apply PgProofs1.map_res_forall2 in M. replace (length inputs) with (length cs) by (clear - M; induction M; cbn; congruence).
  clear. split.
  - induction cs as [|c cs IH]; [intros _ ? []|]. cbn. assert (LE : (length (filter (fun c => negb (c_identity c)) cs) <= length cs)%nat).
    { clear. induction cs as [|c cs IH]; cbn; [lia|]. destruct (negb (c_identity c)); cbn; lia. }
    destruct (c_identity c) eqn:I; cbn; intros L; [lia|]. injection L as L. intros x [<- | J]; [exact I|]. now apply IH.
  - intros G. f_equal. symmetry. induction cs as [|c cs IH]; [reflexivity|]. cbn. rewrite (G c (or_introl eq_refl)). cbn. now rewrite IH by (intros x I; apply G; now right).
Qed.
Print Assumptions C64_insert_count.

(** ** The declared type carries what the column can hold. *)
Definition engine_of (d : Ddl.dialect) : option engine := match d with DMSSQL => Some SQLServer | DOracle => Some Oracle | _ => None end.
Open Scope Z_scope.
Lemma one_of w : ((w =? 1) || (w =? 2) || (w =? 4) || (w =? 8))%bool = true -> w = 1 \/ w = 2 \/ w = 4 \/ w = 8.
Proof. intros H. rewrite !Bool.orb_true_iff, !Z.eqb_eq in H. tauto. Qed.
(** Integers, for the types that the library's generators use *)
Theorem C64_integers : forall d e w i s c z, engine_of d = Some e -> input_of d (PropsCapacity.int_type e w) = Some i ->
  type_str (PropsCapacity.int_type e w) = Ok s -> server_type e s = Some c -> fits_int c z -> carries_int i z.
Proof.
  intros d e w i s c z De Hi E S F. destruct d; try discriminate De; injection De as <-; cbn [PropsCapacity.int_type] in *.
  - injection Hi as <-. cbn [odbc_type ms_bool base_type]. cbn [type_str] in E.
    revert E; destruct (Z.eqb_spec w 1) as [-> |]; [|destruct (Z.eqb_spec w 2) as [-> |]; [|destruct (Z.eqb_spec w 4) as [-> |]; [|destruct (Z.eqb_spec w 8) as [-> |]]]];
      intros E; try discriminate E; injection E as <-; cbv in S; try discriminate S; injection S as <-; exact F.
  - injection Hi as <-. cbn [type_str sub_str] in E. injection E as <-. cbv in S. injection S as <-. exact F.
Qed.
Print Assumptions C64_integers.

(** Texts no longer than the limit of the type (if it has one), for the types that the generators use *)
Theorem C64_texts : forall d e l i s c t, engine_of d = Some e -> input_of d (PropsCapacity.text_type e l) = Some i ->
  type_str (PropsCapacity.text_type e l) = Ok s -> server_type e s = Some c ->
  text_ok t -> (forall n, l = Some n -> 0 <= n /\ chars t <= n) -> fits_text c t -> carries_text i t.
Proof.
  intros d e l i s c [ch sz] De Hi E S [O1 O2] L F. cbn [chars size] in *. destruct d; try discriminate De; injection De as <-; cbn [PropsCapacity.text_type] in *; injection Hi as <-.
  - cbn [odbc_type ms_bool base_type carries_text size]. destruct l as [n|]; [|now left]. destruct (L n eq_refl) as [N1 N2].
    assert (X : or_else (Some n) 0 = n) by (destruct n; reflexivity). rewrite X.
    pose proof (PropsCapacity.text_capacity_ok SQLServer n) as Y. unfold PropsCapacity.created in Y. cbn [PropsCapacity.text_type] in Y. rewrite E, S in Y.
    cbn in Y. change 2147483647 with (2 ^ 31 - 1) in *. revert Y. unfold PropsCapacity.text_capacity. destruct (Z.leb_spec n 0); cbn [orb]; [intros _; left; lia|].
    destruct (Z.eqb_spec n (2 ^ 31 - 1)) as [-> |]; [intros Y; injection Y as Y; rewrite Y in F; right; cbn in F; lia|].
    destruct (Z.leb_spec n 8000); [intros Y; injection Y as Y; rewrite Y in F; right; exact F|discriminate].
  - cbn [oracle_var base_type]. destruct l as [n|]; cbn [carries_text chars].
    + apply (L n eq_refl).
    + cbn in E. injection E as <-. cbv in S. injection S as <-. cbn in F. lia.
Qed.
Print Assumptions C64_texts.
(** Byte strings on Oracle no longer than the limit; fixed ones (UUIDs, addresses) on SQL Server *)
Theorem C64_bytes : forall l i s c m, input_of DOracle (PropsCapacity.bytes_type PropsCapacity.BOracle l) = Some i ->
  type_str (PropsCapacity.bytes_type PropsCapacity.BOracle l) = Ok s -> server_type Oracle s = Some c ->
  (forall n, l = Some n -> m <= n) -> fits_bytes c m -> carries_bytes i m.
Proof.
  intros l i s c m Hi E S L F. cbn in Hi. destruct l as [n|]; injection Hi as <-; cbn [carries_bytes]; [now apply L|].
  cbn in E. injection E as <-. cbv in S. injection S as <-. exact F.
Qed.
Print Assumptions C64_bytes.
Theorem C64_fixed_bytes : forall n i s c m, input_of DMSSQL (TFixBin (Some n)) = Some i ->
  type_str (TFixBin (Some n)) = Ok s -> server_type SQLServer s = Some c -> fits_bytes c m -> carries_bytes i m.
Proof.
  intros n i s c m Hi E S F. injection Hi as <-. injection E as <-. cbn [odbc_type ms_bool base_type carries_bytes].
  assert (X : or_else (Some n) 0 = n) by (destruct n; reflexivity). change (match n with 0 => 0 | _ => n end) with (or_else (Some n) 0); rewrite X.
  pose proof (PropsCapacity.server_num SQLServer "binary" n eq_refl) as Y. change (server_type SQLServer (String.append "binary" (String.append "(" (String.append (z_to_str n) ")"))) = Some c) in S. rewrite S in Y. clear S. rename Y into S. symmetry in S.
  destruct (0 <=? n); [|discriminate S]. cbn in S. unfold in_range in S. destruct (((1 <=? n) && (n <=? 8000))%bool); [|discriminate S]. injection S as <-. right. exact F.
Qed.
Print Assumptions C64_fixed_bytes.

(** Byte strings of limited or unlimited length on SQL Server *)
Theorem C64_variable_bytes : forall l i m, input_of DMSSQL (TVarBin l) = Some i -> (forall n, l = Some n -> m <= n) -> carries_bytes i m.
Proof. intros l i m Hi L. injection Hi as <-. cbn. destruct l as [n|]; [|now left]. specialize (L n eq_refl). destruct n; auto. Qed.
Print Assumptions C64_variable_bytes.
(** Truth values, dates, points of time, times of day and floating-point numbers are declared as what they are. *)
Theorem C64_kinds : forall d t k i, typed d -> kind_of d t k -> input_of d t = Some i -> carries_kind i k.
Proof.
  intros d t k i D K H. assert (NB : k = Truth \/ ms_bool t = false).
  { clear H i. induction K as [t E|E| | | | | |c t k C K IH]; auto. destruct IH as [-> |IH]; [now left|]. right. destruct c; cbn; auto. now destruct C. }
  destruct D as [-> | ->]; cbn [input_of] in H; injection H as <-.
  - unfold odbc_type. destruct (ms_bool t) eqn:B.
    + destruct NB as [-> |NB]; [exact Logic.I|discriminate].
    + clear NB. induction K as [t E|E| | | | | |c t k C K IH]; try discriminate E; try discriminate B; try exact Logic.I. destruct c; try (exact (IH B)). discriminate B.
  - unfold oracle_var. clear NB. induction K as [t E|E| | | | | |c t k C K IH]; try discriminate E; try exact Logic.I. exact IH.
Qed.
Print Assumptions C64_kinds.

(** The scale and precision of a decimal column of SQL Server: Transact-SQL, "decimal and numeric": decimal(p, s), decimal(p) = decimal(p, 0),
    decimal = decimal(18, 0), 1 <= p <= 38, 0 <= s <= p.  It holds z / 10^k if k <= s and the number has at most p - s digits before the point. *)
Definition decimal_column (spelling : string) (p s : Z) : Prop :=
  1 <= p <= 38 /\ 0 <= s <= p /\
  (spelling = "decimal(" ++ z_to_str p ++ ", " ++ z_to_str s ++ ")" \/ (spelling = "decimal(" ++ z_to_str p ++ ")" /\ s = 0) \/ (spelling = "decimal" /\ p = 18 /\ s = 0))%string.
Definition holds_decimal (p s z k : Z) : Prop := 0 <= k <= s /\ Z.abs z * 10 ^ (s - k) < 10 ^ p.
Theorem C64_decimals : forall d p s z k spelling i, typed d ->
  type_str (TDecimal (Some p) s) = Ok spelling -> decimal_column spelling p (match s with Some n => n | None => 0 end) ->
  holds_decimal p (match s with Some n => n | None => 0 end) z k -> input_of d (TDecimal (Some p) s) = Some i -> carries_decimal i z k.
Proof.
  intros d p s z k spelling i D _ (P & S & _) [K H] Hi. destruct D as [-> | ->].
  - assert (I : i = ByOdbc SQL_DECIMAL (or_else (Some p) 15) (or_else s 0)) by (injection Hi; auto). subst i. cbn [carries_decimal]. assert (X : or_else (Some p) 15 = p) by (destruct p; try reflexivity; lia). rewrite X.
    assert (Y : or_else s 0 = match s with Some n => n | None => 0 end) by (destruct s as [[]|]; reflexivity). rewrite Y. split; [lia|exact H].
  - injection Hi as <-. cbn [carries_decimal]. assert (A : 1 <= 10 ^ (match s with Some n => n | None => 0 end - k)) by (change 1 with (10 ^ 0); apply Z.pow_le_mono_r; lia).
    assert (B : 10 ^ p <= 10 ^ 38) by (apply Z.pow_le_mono_r; lia).
    apply Z.le_lt_trans with (Z.abs z * 1); [lia|]. apply Z.le_lt_trans with (2 := Z.lt_le_trans _ _ _ H B). apply Z.mul_le_mono_nonneg_l; lia.
Qed.
Print Assumptions C64_decimals.

(** ** What does not hold *)
(** If a generated column is among the fields of an insert, every parameter is declared with the type of the column before it. *)
Definition ex_event : table := Tab (Qualified (Some "dbo") "Event")
  [Col "id" (TInt 4 true None None) false None true None; Col "name" (TSub MsVarChar (TVarChar (Some 100))) false None false None] ["id"] [] None None.
Theorem C64_insert_generated_refuted : exists t s inputs,
  name_ok (t_name t) /\ NoDup (map c_name (t_columns t)) /\ insert_call DMSSQL t None = Ok (s, inputs) /\
  read_data DMSSQL (render_dml DMSSQL s) = Some (RInsert (table_of t) ["name"] [1%nat] Fail) /\
  length inputs = 2%nat /\ exists i, nth_error inputs 0 = Some i /\ forall x, ~ carries_text i x.
Proof.
  exists ex_event. do 2 eexists. split; [vm_compute; exact Logic.I|]. split; [repeat constructor; cbn; intuition discriminate|]. split; [reflexivity|]. split; [vm_compute; reflexivity|].
  split; [reflexivity|]. eexists. split; [reflexivity|]. intros x X. exact X.
Qed.
Print Assumptions C64_insert_generated_refuted.
(** SQL Server: points of time are declared without fractions of a second, although the column, datetime2, has seven digits. *)
Theorem C64_mssql_fraction_refuted : forall p z n i, type_str (TSub MsDateTime (TTimestamp p z)) = Ok "datetime2" /\
  (input_of DMSSQL (TSub MsDateTime (TTimestamp p z)) = Some i -> 1 <= n -> ~ carries_fraction i n).
Proof. intros p z n i. split; [reflexivity|]. intros H N. injection H as <-. cbn. lia. Qed.
Print Assumptions C64_mssql_fraction_refuted.
Theorem C64_mssql_time_fraction_refuted : forall p z n i, input_of DMSSQL (TTime p z) = Some i -> 1 <= n -> ~ carries_fraction i n.
Proof. intros p z n i H N. injection H as <-. cbn. lia. Qed.
Print Assumptions C64_mssql_time_fraction_refuted.
(** SQL Server: a decimal number without precision is declared with 15 digits; its column has 18. *)
Theorem C64_mssql_decimal_refuted : exists p s z i, decimal_column "decimal" p s /\ type_str (TDecimal None None) = Ok "decimal" /\ holds_decimal p s z 0 /\
  input_of DMSSQL (TDecimal None None) = Some i /\ ~ carries_decimal i z 0.
Proof.
  exists 18, 0, (10 ^ 15). eexists. split; [|split; [reflexivity|split; [|split; [reflexivity|]]]].
  - split; [lia|]. split; [lia|]. right. right. auto.
  - split; [lia|]. vm_compute. reflexivity.
  - cbn. intros [_ X]. vm_compute in X. discriminate X.
Qed.
Print Assumptions C64_mssql_decimal_refuted.
(** Oracle: byte strings of fixed length are declared as of an unknown type.  (The generator does not use that type on Oracle, but a user may.) *)
Theorem C64_oracle_fixed_refuted : forall n i m, input_of DOracle (TFixBin n) = Some i -> ~ carries_bytes i m.
Proof. intros n i m H X. injection H as <-. exact X. Qed.
Print Assumptions C64_oracle_fixed_refuted.

(** ** Examples *)
Definition ex_person : table := Tab (Qualified (Some "dbo") "Person")
  [Col "id" (TInt 8 true None None) false None false None; Col "name" (TSub MsVarChar (TVarChar (Some 100))) false None false None;
   Col "born" TDate true None false None; Col "weight" (TDecimal (Some 6) (Some 2)) true None false None] ["id"] [CUnique "uq_name" ["name"]] None None.
Example C64_example_upsert : exists s, upsert_call DMSSQL ex_person (Some ["weight"; "name"; "id"]) =
  Ok (s, [ByOdbc SQL_DECIMAL 6 2; ByOdbc SQL_VARCHAR 100 0; ByOdbc SQL_BIGINT 0 0]).
Proof. eexists. vm_compute. reflexivity. Qed.
Example C64_example_meets : exists cs s inputs, typed DOracle /\ name_ok (t_name ex_person) /\ NoDup (map c_name (t_columns ex_person)) /\
  get_columns ex_person (order_of (Some ["born"; "id"; "name"])) = Ok cs /\ (exists c, In c (map c_name cs) /\ lookup_key ex_person c) /\ (exists c, plain cs c) /\
  upsert_call DOracle ex_person (Some ["born"; "id"; "name"]) = Ok (s, inputs) /\ inputs = [ByOracle OraDate; ByOracle OraNumber; ByOracle (OraString 100)].
Proof.
  do 3 eexists. split; [now right|]. split; [vm_compute; exact Logic.I|]. split; [repeat constructor; cbn; intuition discriminate|]. split; [reflexivity|].
  split; [exists "id"; split; [cbn; tauto|unfold lookup_key; cbn; tauto]|]. split; [exists "born"; eexists; split; [left; reflexivity|split; reflexivity]|]. split; [reflexivity|reflexivity].
Qed.
Example C64_example_insert : exists s, insert_call DOracle ex_person None = Ok (s, [ByOracle OraNumber; ByOracle (OraString 100); ByOracle OraDate; ByOracle OraNumber]).
Proof. eexists. vm_compute. reflexivity. Qed.
Example C64_example_delete : exists s, delete_call DMSSQL ex_person = Ok (s, [ByOdbc SQL_BIGINT 0 0]).
Proof. eexists. vm_compute. reflexivity. Qed.
