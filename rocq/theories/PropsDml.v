(** C23, C24, C25, C48: INSERT, upsert and DELETE. *)
From Verif Require Import PyStr QuoteModel ObjectDict ObjectDictProofs Types Objects Ddl Render Dml RowSpec DmlSpec TablePredProofs
  DmlProofs DmlProofs2 DmlProofs3 ExCat.
From Coq Require Import Lia Arith.
Open Scope string_scope.
Open Scope list_scope.

Ltac nd := simpl; repeat constructor; simpl; intuition discriminate.
Definition is_eq {V} (veqb : V -> V -> bool) : Prop := forall x y, veqb x y = true <-> x = y.

(** ** C23 *)
(** The statement lists the requested columns (all columns by default) in the requested order, leaving
    out identity columns; it is refused exactly if a requested column does not exist. *)
Theorem C23_insert_columns : forall t order, NoDup (map c_name (t_columns t)) ->
  (forall s, insert_stmt t order = Ok s ->
     exists cs cols, s = QInsert (t_name t) cols
       /\ (forall c, In c cs -> In c (t_columns t))
       /\ map c_name cs = match order with None => map c_name (t_columns t) | Some ns => ns end
       /\ cols = map c_name (filter (fun c => negb (c_identity c)) cs)) /\
  (is_ok (insert_stmt t order) = false <->
     exists n ns, order = Some ns /\ In n ns /\ ~ In n (map c_name (t_columns t))).
Proof.
  intros t order ND. split.
  - intros s H. destruct (insert_stmt_ok t order s H) as (cs & E & ->). exists cs, (names (not_identity cs)).
    split; [reflexivity|]. destruct order as [ns|].
    + apply get_columns_named in E; [|exact ND]. destruct E as [E1 E2]. auto.
    + injection E as <-. auto.
  - rewrite insert_stmt_err. destruct order as [ns|].
    + rewrite get_columns_err. split; [intros (n & I & N); eauto 6|]. intros (n & ns' & [= <-] & I & N). eauto.
    + simpl. split; [discriminate|]. intros (n & ns & [=] & _).
Qed.
Print Assumptions C23_insert_columns.
(** Executed with a record of that width, it adds exactly the row that has value i of the record in
    column i of the list (or violates a key); with any other width it is refused. *)
Theorem C23_insert_aligned : forall (V : Type) (veqb : V -> V -> bool) t order cs s uniq fill rows rec,
  get_columns t order = Ok cs -> NoDup (names cs) -> insert_stmt t order = Ok s ->
  let cols := names (filter (fun c => negb (c_identity c)) cs) in
  (length rec <> length cols -> is_ok (exec_dml veqb uniq fill s rows rec) = false) /\
  (forall rows', exec_dml veqb uniq fill s rows rec = Ok rows' ->
     exists r, rows' = rows ++ [r] /\ (forall c, In c cols -> record_value cols rec c (r c)) /\
               (forall c, ~ In c cols -> r c = fill rows c)).
Proof.
  intros V veqb t order cs s uniq fill rows rec E ND H cols.
  destruct (insert_stmt_ok t order s H) as (cs' & E' & ->). rewrite E in E'. injection E' as <-. fold (not_identity cs) in cols.
  assert (ND' : NoDup cols).
  { unfold cols, names, not_identity. clear - ND. induction cs as [|c cs IH]; simpl; [constructor|].
    inversion ND as [|? ? N ND']; subst. destruct (negb _); simpl; [constructor|]; auto.
    intros I. apply N. apply in_map_iff in I. destruct I as (k & A & B). apply filter_In in B. unfold names. rewrite <- A. apply in_map. apply B. }
  cbn [exec_dml]. fold cols. destruct (Nat.eqb (length rec) (length cols)) eqn:L; cbn [negb].
  - apply Nat.eqb_eq in L. split; [contradiction|]. intros rows' X. unfold insert_row in X.
    match type of X with (if ?b then _ else _) = _ => destruct b; [discriminate|] end. injection X as <-.
    eexists. split; [reflexivity|]. split; intros c I; unfold proposed.
    + destruct (param_listed cols rec c L I) as (v & Pv). rewrite Pv. apply param_some; assumption.
    + rewrite (param_unlisted cols rec c I). reflexivity.
  - split; [reflexivity|discriminate].
Qed.
Print Assumptions C23_insert_aligned.
(** MySQL statements are formatted with Python's [%] operator: the text has one [%] per column ... *)
Lemma count_app c a b : count_char c (a ++ b)%string = count_char c a + count_char c b.
Proof. induction a as [|x a IH]; [reflexivity|]. change (String x a ++ b)%string with (String x (a ++ b)%string). cbn [count_char]. rewrite IH. lia. Qed.
Lemma count_quoted n : count_char "%" (local_quoted n) = count_char "%" n.
Proof.
  unfold local_quoted, in_dq, quote_id, replace1. rewrite !count_app. simpl. rewrite Nat.add_0_r.
  induction n as [|x n IH]; [reflexivity|]. cbn [translate]. rewrite count_app, IH.
  destruct (Ascii.eqb x DQ) eqn:E; [apply Ascii.eqb_eq in E; subst; reflexivity|]. simpl. lia.
Qed.
Lemma count_join c sep l : count_char c sep = 0 -> count_char c (join_str sep l) = list_sum (map (count_char c) l).
Proof.
  intros H. induction l as [|x l IH]; [reflexivity|]. destruct l as [|y l]; [simpl; lia|].
  change (join_str sep (x :: y :: l)) with (x ++ sep ++ join_str sep (y :: l))%string. rewrite !count_app, H, IH. reflexivity.
Qed.
Theorem C23_mysql_placeholders : forall t order cs s,
  get_columns t order = Ok cs -> insert_stmt t order = Ok s ->
  count_char "%" (quoted_id (t_name t)) = 0 -> (forall c, In c cs -> count_char "%" (c_name c) = 0) ->
  count_char "%" (render_dml DMySQL s) = length (filter (fun c => negb (c_identity c)) cs).
Proof.
  intros t order cs s E H Q HC. destruct (insert_stmt_ok t order s H) as (cs' & E' & ->). rewrite E in E'. injection E' as <-.
  change (filter (fun c => negb (c_identity c)) cs) with (not_identity cs).
  assert (HN : forall c, In c (not_identity cs) -> count_char "%" (c_name c) = 0).
  { intros c I. apply HC. apply filter_In in I. apply I. }
  clear H. revert HN. generalize (not_identity cs). intros l HN.
  cbn [render_dml]. unfold semi. cbn [app join_str]. rewrite !count_app, Q. unfold values_part. rewrite !count_app.
  unfold col_list. rewrite count_join by reflexivity. unfold value_list. rewrite count_join by reflexivity. simpl.
  assert (A : list_sum (map (count_char "%") (map local_quoted (names l))) = 0).
  { clear - HN. induction l as [|c l IH]; [reflexivity|]. cbn [names map list_sum fold_right]. rewrite count_quoted, (HN c) by now left. apply IH. intros x I. apply HN. now right. }
  rewrite A. assert (B : forall i, list_sum (map (count_char "%") (map (placeholder DMySQL) (seq i (length (names l))))) = length l).
  { clear. unfold names. rewrite map_length. induction l as [|c l IH]; intros i; [reflexivity|]. simpl. f_equal. apply IH. }
  rewrite B. lia.
Qed.
Print Assumptions C23_mysql_placeholders.
(** ... but a column name with a per cent sign adds one more than there are values (finding). *)
Theorem C23_mysql_percent_refuted : exists t s, insert_stmt t None = Ok s /\ length (t_columns t) = 2 /\
  count_char "%" (render_dml DMySQL s) = 3.
Proof.
  exists (Tab (q0 "T") [Col "id" bigint false None false None; Col "rate%s" bigint false None false None] ["id"] [] None None).
  eexists. split; [reflexivity|]. split; reflexivity.
Qed.

Definition ex_t : table :=
  Tab (q0 "Person") [Col "id" bigint false None false None; Col "name" (TVarChar None) false None false None; Col "city" (TVarChar None) true None false None]
      ["id"] [CUnique "uq_Person_name" ["name"]] None None.
Definition row3 (a b c : option string) : string -> option string :=
  fun k => if String.eqb k "id" then a else if String.eqb k "name" then b else if String.eqb k "city" then c else None.
Definition no_default : list (string -> option string) -> string -> option string := fun _ _ => None.
Lemma string_eq_ok : is_eq String.eqb. Proof. intros x y. apply String.eqb_eq. Qed.
Example C23_example : NoDup (map c_name (t_columns ex_t)) /\
  insert_stmt ex_t (Some ["city"; "id"]) = Ok (QInsert (q0 "Person") ["city"; "id"]) /\
  is_ok (insert_stmt ex_t (Some ["nope"])) = false /\
  is_ok (exec_dml String.eqb (table_keys ex_t) no_default (QInsert (q0 "Person") ["city"; "id"]) [] [Some "x"; Some "1"]) = true /\
  count_char "%" (quoted_id (t_name ex_t)) = 0.
Proof. split; [nd|]. repeat split. Qed.

(** Rows inserted by type and name ([insert_rows]) keep the values of identity columns in the records while
    the statement leaves the columns out: the widths differ and the insertion fails (finding). *)
Theorem C23_identity_rows_refuted : exists t s, insert_stmt t (Some ["id"; "value"]) = Ok s /\
  forall rows, is_ok (exec_dml String.eqb (table_keys t) no_default s rows [Some "1"; Some "x"]) = false.
Proof.
  exists (Tab (q0 "Color") [Col "id" bigint false None true None; Col "value" (TVarChar None) false None false None] ["id"] [] None None).
  eexists. split; [reflexivity|]. reflexivity.
Qed.

(** ** C24: MERGE (SQL Server, Oracle, Snowflake, Redshift, Databricks) *)
Definition by_merge (d : dialect) : Prop := d <> DPg /\ d <> DMySQL.
(** One record: if it agrees with some row on an identifying column, the listed, not generated, not
    identifying columns of exactly those rows take its values; otherwise one row is added with its values. *)
Theorem C24_one_record : forall (V : Type) (veqb : V -> V -> bool), is_eq veqb ->
  forall d t order cs s uniq fill rows rec rows', by_merge d ->
  get_columns t order = Ok cs -> NoDup (names cs) -> upsert_stmt d t order = Ok s ->
  exec_dml veqb uniq fill s rows rec = Ok rows' ->
  (exists r, In r rows /\ hit t (names cs) rec r) /\
  Forall2 (fun r r' =>
    (hit t (names cs) rec r ->
       forall c, (plain cs c /\ ~ lookup_key t c -> record_value (names cs) rec c (r' c))
              /\ (~ (plain cs c /\ ~ lookup_key t c) -> r' c = r c))
    /\ (~ hit t (names cs) rec r -> r' = r)) rows rows'
  \/
  (forall r, In r rows -> ~ hit t (names cs) rec r) /\
  exists r, rows' = rows ++ [r]
    /\ (forall c, plain cs c -> record_value (names cs) rec c (r c))
    /\ (forall c, ~ plain cs c -> r c = fill rows c).
Proof. intros V veqb Veq d t order cs s uniq fill rows rec rows' D HC ND HS. exact (merge_step veqb Veq d t order cs s D HC HS ND uniq fill rows rec rows'). Qed.
Print Assumptions C24_one_record.
(** A batch: rows stay in place; columns that are not listed, generated or identifying, and rows that no
    record hits, are unchanged; every record is stored; a row has the values of the last record that hits it. *)
Theorem C24_batch : forall (V : Type) (veqb : V -> V -> bool), is_eq veqb ->
  forall d t order cs s fill rows recs rows', by_merge d ->
  get_columns t order = Ok cs -> NoDup (names cs) -> upsert_stmt d t order = Ok s ->
  exec_many veqb (table_keys t) fill s rows recs = Ok rows' ->
  framed (hit t (names cs)) (overwritten t cs) rows recs rows' /\
  ((forall x, In x recs -> identified t cs x) -> stored (hit t (names cs)) (overwritten t cs) (names cs) recs rows').
Proof.
  intros V veqb Veq d t order cs s fill rows recs rows' D HC ND HS E. split.
  - exact (merge_framed veqb Veq d t order cs s D HC HS ND fill rows recs rows' E).
  - intros K. exact (merge_stored veqb Veq d t order cs s D HC HS ND fill rows recs rows' K E).
Qed.
Print Assumptions C24_batch.
Theorem C24_idempotent : forall (V : Type) (veqb : V -> V -> bool), is_eq veqb ->
  forall d t order cs s fill rows recs rows1 rows2, by_merge d ->
  get_columns t order = Ok cs -> NoDup (names cs) -> upsert_stmt d t order = Ok s ->
  (forall x, In x recs -> identified t cs x) ->
  exec_many veqb (table_keys t) fill s rows recs = Ok rows1 ->
  exec_many veqb (table_keys t) fill s rows1 recs = Ok rows2 -> same_rows rows2 rows1.
Proof. intros V veqb Veq d t order cs s fill rows recs rows1 rows2 D HC ND HS. exact (merge_idempotent veqb Veq d t order cs s D HC HS ND fill rows recs rows1 rows2). Qed.
Print Assumptions C24_idempotent.
(** When every key is a single listed column that is not generated, no batch can fail and keys stay unique. *)
Theorem C24_succeeds_and_keys_unique : forall (V : Type) (veqb : V -> V -> bool), is_eq veqb ->
  forall d t order cs s fill rows recs k, by_merge d ->
  get_columns t order = Ok cs -> NoDup (names cs) -> upsert_stmt d t order = Ok s ->
  t_pk t = [k] -> (forall k, In k (table_keys t) -> exists c, k = [c] /\ plain cs c) ->
  (forall x, In x recs -> length x = length (names cs)) -> unique_ok veqb (table_keys t) rows = true ->
  exists rows', exec_many veqb (table_keys t) fill s rows recs = Ok rows' /\ unique_ok veqb (table_keys t) rows' = true.
Proof. intros V veqb Veq d t order cs s fill rows recs k D HC ND HS. exact (merge_succeeds veqb Veq d t order cs s D HC HS fill rows recs k). Qed.
Print Assumptions C24_succeeds_and_keys_unique.
(** The hypotheses are met: two records, one matching by the unique name, one new. *)
Definition ex_rows := [row3 (Some "1") (Some "ann") (Some "Rome"); row3 (Some "2") (Some "bob") None].
Definition ex_recs := [[Some "9"; Some "ann"; Some "Oslo"]; [Some "3"; Some "eve"; None]].
Example C24_example : by_merge DMSSQL /\ get_columns ex_t None = Ok (t_columns ex_t) /\ NoDup (names (t_columns ex_t)) /\
  exists s rows', upsert_stmt DMSSQL ex_t None = Ok s
    /\ exec_many String.eqb (table_keys ex_t) no_default s ex_rows ex_recs = Ok rows'
    /\ map (fun r => (r "id", r "name", r "city")) rows' =
         [(Some "1", Some "ann", Some "Oslo"); (Some "2", Some "bob", None); (Some "3", Some "eve", None)]
    /\ (forall x, In x ex_recs -> identified ex_t (t_columns ex_t) x)
    /\ (forall k, In k (table_keys ex_t) -> exists c, k = [c] /\ plain (t_columns ex_t) c)
    /\ unique_ok String.eqb (table_keys ex_t) ex_rows = true.
Proof.
  split; [split; discriminate|]. split; [reflexivity|]. split; [nd|].
  eexists. eexists. split; [reflexivity|]. split; [reflexivity|]. split; [reflexivity|]. split; [|split].
  - intros x [<-|[<-|[]]]; exists "name"; eexists; (split; [right; eexists; left; reflexivity|]); (split; [eexists; split; [right; left; reflexivity|auto]|]); exists 1; split; reflexivity.
  - intros k [<-|[<-|[]]]; eexists; (split; [reflexivity|]).
    + eexists; split; [left; reflexivity|auto].
    + eexists; split; [right; left; reflexivity|auto].
  - reflexivity.
Qed.
(** Findings.  A record that is only identified by a generated key is added again each time. *)
Theorem C24_identity_key_not_idempotent_refuted :
  exists t s fill rec rows1 rows2, upsert_stmt DMSSQL t None = Ok s /\
    exec_many String.eqb (table_keys t) fill s [] [rec] = Ok rows1 /\
    exec_many String.eqb (table_keys t) fill s rows1 [rec] = Ok rows2 /\ length rows1 = 1 /\ length rows2 = 2.
Proof.
  exists (Tab (q0 "Log") [Col "id" bigint false None true None; Col "msg" (TVarChar None) false None false None] ["id"] [] None None).
  eexists. exists (fun rows _ => match rows with [] => Some "1" | _ => Some "2" end), [Some "77"; Some "hello"].
  do 2 eexists. split; [reflexivity|]. split; [reflexivity|]. split; [reflexivity|]. split; reflexivity.
Qed.
(** A table with a composite primary key cannot be upserted at all. *)
Theorem C24_composite_key_refused : forall d t order cs, by_merge d -> get_columns t order = Ok cs -> cs <> [] ->
  (forall k, t_pk t <> [k]) -> is_ok (upsert_stmt d t order) = false.
Proof.
  intros d t order cs [D1 D2] E N K. unfold upsert_stmt. rewrite E. cbn [bind].
  assert (M : is_ok (match_columns t cs) = false).
  { unfold match_columns. destruct cs as [|c cs]; [contradiction|]. cbn [filter_res].
    pose proof (proj2 (is_primary_column_err t (c_name c)) K) as X. unfold is_lookup_column.
    destruct (is_primary_column t (c_name c)); [discriminate|reflexivity]. }
  destruct d; try contradiction; destruct (match_columns t cs); simpl in M; try discriminate; reflexivity.
Qed.
Print Assumptions C24_composite_key_refused.
(** Without an identifying column among the listed ones the statement has no ON clause and cannot be executed. *)
Theorem C24_no_key_column_refused : forall (V : Type) (veqb : V -> V -> bool) d t order cs s uniq fill rows rec, by_merge d ->
  get_columns t order = Ok cs -> upsert_stmt d t order = Ok s -> (forall c, In c (names cs) -> ~ lookup_key t c) ->
  is_ok (exec_dml veqb uniq fill s rows rec) = false.
Proof.
  intros V veqb d t order cs s uniq fill rows rec D HC HS N.
  destruct (merge_shape d t order cs s D HC HS) as (ms & upd & ins & -> & HM & _ & _).
  assert (ms = []) as ->. { destruct ms as [|m ms]; [reflexivity|]. exfalso. assert (I : In m (m :: ms)) by now left. apply HM in I. destruct I as [I L]. exact (N m I L). }
  cbn [exec_dml]. destruct (negb _); reflexivity.
Qed.
Print Assumptions C24_no_key_column_refused.
(** A record that agrees with two rows, on different identifying columns, overwrites both. *)
Theorem C24_two_rows_refuted : exists s rows', upsert_stmt DMSSQL ex_t None = Ok s /\
  exec_many String.eqb (table_keys ex_t) no_default s ex_rows [[Some "1"; Some "bob"; Some "Oslo"]] = Ok rows' /\
  map (fun r => (r "id", r "name", r "city")) rows' = [(Some "1", Some "ann", Some "Oslo"); (Some "2", Some "bob", Some "Oslo")].
Proof. do 2 eexists. split; [reflexivity|]. split; reflexivity. Qed.

(** ** C25: PostgreSQL and MySQL *)
(** MySQL resolves duplicates on any key; the theorems cover tables whose only key is the primary key. *)
Definition by_key (d : dialect) (t : table) : Prop := d = DPg \/ d = DMySQL /\ table_keys t = [t_pk t].
(** every column of the table is listed, once *)
Definition all_listed (t : table) (cs : list column) : Prop :=
  NoDup (names cs) /\ (forall k, In k (t_columns t) -> In (c_name k) (names cs)).
Definition pk_exists (t : table) : Prop := forall c, In c (t_pk t) -> In c (names (t_columns t)).
Theorem C25_batch_full_columns : forall (V : Type) (veqb : V -> V -> bool), is_eq veqb ->
  forall d t order cs s fill rows recs rows', by_key d t -> pk_exists t ->
  get_columns t order = Ok cs -> all_listed t cs -> upsert_stmt d t order = Ok s ->
  exec_many veqb (table_keys t) fill s rows recs = Ok rows' ->
  framed (pk_hit t (names cs)) (value_column t) rows recs rows' /\
  ((forall x, In x recs -> pk_given t (names cs) x) -> stored (pk_hit t (names cs)) (value_column t) (names cs) recs rows') /\
  (unique_ok veqb (table_keys t) rows = true -> unique_ok veqb (table_keys t) rows' = true).
Proof.
  intros V veqb Veq d t order cs s fill rows recs rows' D HP HC [ND HA] HS E. split; [|split].
  - exact (key_framed veqb Veq d t order cs s D HC HS ND HA HP fill rows recs rows' E).
  - intros K. exact (key_stored veqb Veq d t order cs s D HC HS ND HA HP fill rows recs rows' K E).
  - intros Q. exact (key_unique veqb Veq d t order cs s D HC HS HA HP fill rows recs rows' Q E) || exact (key_unique veqb Veq d t order cs s D HC HS ND HA HP fill rows recs rows' Q E).
Qed.
Print Assumptions C25_batch_full_columns.
Theorem C25_idempotent_full_columns : forall (V : Type) (veqb : V -> V -> bool), is_eq veqb ->
  forall d t order cs s fill rows recs rows1 rows2, by_key d t -> pk_exists t ->
  get_columns t order = Ok cs -> all_listed t cs -> upsert_stmt d t order = Ok s ->
  (forall x, In x recs -> pk_given t (names cs) x) ->
  exec_many veqb (table_keys t) fill s rows recs = Ok rows1 ->
  exec_many veqb (table_keys t) fill s rows1 recs = Ok rows2 -> same_rows rows2 rows1.
Proof.
  intros V veqb Veq d t order cs s fill rows recs rows1 rows2 D HP HC [ND HA] HS.
  exact (key_idempotent veqb Veq d t order cs s D HC HS ND HA HP fill rows recs rows1 rows2).
Qed.
Print Assumptions C25_idempotent_full_columns.
Definition ex_k : table := Tab (q0 "Pair") [Col "a" bigint false None false None; Col "b" bigint false None false None; Col "v" (TVarChar None) true None false None] ["a"; "b"] [] None None.
Definition rowk (a b c : option string) : string -> option string :=
  fun k => if String.eqb k "a" then a else if String.eqb k "b" then b else if String.eqb k "v" then c else None.
Example C25_example : by_key DPg ex_k /\ by_key DMySQL ex_k /\ pk_exists ex_k /\ all_listed ex_k (t_columns ex_k) /\
  forall d, d = DPg \/ d = DMySQL -> exists s rows', upsert_stmt d ex_k None = Ok s /\
    exec_many String.eqb (table_keys ex_k) no_default s [rowk (Some "1") (Some "1") None; rowk (Some "1") (Some "2") (Some "old")]
      [[Some "1"; Some "2"; Some "new"]; [Some "2"; Some "2"; None]] = Ok rows' /\
    map (fun r => (r "a", r "b", r "v")) rows' = [(Some "1", Some "1", None); (Some "1", Some "2", Some "new"); (Some "2", Some "2", None)] /\
    (forall x, In x [[Some "1"; Some "2"; Some "new"]; [Some "2"; Some "2"; None]] -> pk_given ex_k (names (t_columns ex_k)) x).
Proof.
  split; [left; reflexivity|]. split; [right; split; reflexivity|]. split; [intros c [<-|[<-|[]]]; simpl; auto|].
  split; [split; [nd|intros k I; unfold names; apply in_map; exact I]|].
  assert (G : forall x, In x [[Some "1"; Some "2"; Some "new"]; [Some "2"; Some "2"; None]] -> pk_given ex_k (names (t_columns ex_k)) x).
  { intros x [<-|[<-|[]]] c [<-|[<-|[]]]; eexists; ((exists 0; split; reflexivity) || (exists 1; split; reflexivity)). }
  intros d [-> | ->]; do 2 eexists; (split; [reflexivity|]); (split; [reflexivity|]); (split; [reflexivity|exact G]).
Qed.
(** Findings.  With a partial column list, columns that are not listed are overwritten with their default. *)
Theorem C25_partial_columns_refuted : forall d, d = DPg \/ d = DMySQL ->
  exists s rows', upsert_stmt d ex_data (Some ["id"]) = Ok s /\
    exec_many String.eqb (table_keys ex_data) no_default s [fun k => if String.eqb k "id" then Some "1" else Some "precious"] [[Some "1"]] = Ok rows' /\
    map (fun r => (r "id", r "data")) rows' = [(Some "1", None)].
Proof. intros d [-> | ->]; do 2 eexists; (split; [reflexivity|]); split; reflexivity. Qed.
(** MySQL: a record that collides with a row on a unique column overwrites that row although the primary
    keys differ, and the record's key is not stored. *)
Theorem C25_mysql_other_key_refuted : exists s rows', upsert_stmt DMySQL ex_t None = Ok s /\
  exec_many String.eqb (table_keys ex_t) no_default s ex_rows [[Some "9"; Some "ann"; Some "Oslo"]] = Ok rows' /\
  map (fun r => (r "id", r "name", r "city")) rows' = [(Some "1", Some "ann", Some "Oslo"); (Some "2", Some "bob", None)].
Proof. do 2 eexists. split; [reflexivity|]. split; reflexivity. Qed.

(** ** C48 *)
(** Deletion needs a single-column primary key and compares exactly that column; all rows whose key is
    among the given keys are removed, all others stay as they are, in order. *)
Theorem C48_delete_exact : forall (V : Type) (veqb : V -> V -> bool), is_eq veqb ->
  forall t, NoDup (map c_name (t_columns t)) ->
  (is_ok (delete_stmt t) = false <-> forall k, t_pk t = [k] -> ~ In k (map c_name (t_columns t))) /\
  forall s uniq fill rows keys, delete_stmt t = Ok s ->
    exists k rows', t_pk t = [k] /\ exec_many veqb uniq fill s rows (map (fun v => [Some v]) keys) = Ok rows' /\
      rows' = filter (fun r => match r k with Some v => negb (existsb (fun x => veqb v x) keys) | None => true end) rows /\
      (forall r, In r rows' <-> In r rows /\ forall v, In v keys -> r k <> Some v).
Proof.
  intros V veqb Veq t ND. split.
  - rewrite <- get_primary_column_err. unfold delete_stmt. destruct (get_primary_column t); reflexivity.
  - intros s uniq fill rows keys H. unfold delete_stmt in H. destruct (get_primary_column t) as [c|] eqn:E; cbn [bind] in H; [|discriminate].
    injection H as <-. apply get_primary_column_ok in E; [|exact ND]. destruct E as [I Ek]. exists (c_name c).
    destruct (delete_total veqb (t_name t) (c_name c) fill uniq (map Some keys) rows) as (rows' & X).
    rewrite map_map in X. exists rows'. split; [exact Ek|]. split; [exact X|].
    assert (F : rows' = filter (fun r => match r (c_name c) with Some v => negb (existsb (fun x => veqb v x) keys) | None => true end) rows).
    { rewrite <- (map_map Some (fun k => [k])) in X. apply delete_many in X. rewrite X. apply filter_ext. intros r.
      destruct (r (c_name c)) as [v|]; simpl.
      - f_equal. clear. induction keys as [|x ks IH]; simpl; [reflexivity|]. rewrite IH. reflexivity.
      - clear. induction keys as [|x ks IH]; simpl; [reflexivity|]. exact IH. }
    split; [exact F|]. intros r. rewrite F, filter_In. split; intros [Ir Hr]; (split; [exact Ir|]).
    + intros v Iv Ev. rewrite Ev in Hr. apply Bool.negb_true_iff in Hr.
      assert (Y : existsb (fun x => veqb v x) keys = true) by (apply existsb_exists; exists v; split; [exact Iv|apply Veq; reflexivity]). congruence.
    + destruct (r (c_name c)) as [v|] eqn:Ev; [|reflexivity]. apply Bool.negb_true_iff. apply Bool.not_true_is_false. intros Y.
      apply existsb_exists in Y. destruct Y as (x & Ix & Q). apply Veq in Q. subst. exact (Hr x Ix eq_refl).
Qed.
Print Assumptions C48_delete_exact.
Example C48_example : exists s rows', delete_stmt ex_t = Ok s /\
  exec_many String.eqb (table_keys ex_t) no_default s ex_rows [[Some "1"]; [Some "7"]] = Ok rows' /\ map (fun r => r "id") rows' = [Some "2"] /\
  is_ok (delete_stmt ex_k) = false.
Proof. do 2 eexists. repeat split. Qed.
