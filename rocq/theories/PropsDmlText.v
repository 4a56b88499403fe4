(** C56: the text of each data statement says what was meant, and parameters land in their columns. *)
From Verif Require Import PyStr QuoteModel ObjectDict ObjectDictProofs Types Objects Ddl Render Dml RowSpec DmlSpec TablePredProofs
  DmlProofs DmlProofs2 DmlProofs3 ExCat SqlText TextSpec DmlText DmlTextSpec DmlTextProofs PropsDml.
From Coq Require Import Lia Arith.
Open Scope string_scope.
Open Scope list_scope.

(** Any data statement: the driver and the engine read in the text the table, columns and clauses that were meant,
    and parameter n is the value of the n-th listed column. *)
Theorem C56_data_statement : forall d s, data_ok d s ->
  exists p, read_data d (render_dml d s) = Some p /\ says_data p s.
Proof. exact data_read. Qed.
Print Assumptions C56_data_statement.

(** the two parts of a table's name *)
Definition table_of (t : table) : pname := (scope_id (t_name t), local_id (t_name t)).

(** INSERT: the listed columns that are not generated take parameters 1, 2, ... in order; a duplicate is an error. *)
Theorem C56_insert : forall d t order cs s, name_ok (t_name t) ->
  get_columns t order = Ok cs -> (exists c, plain cs c) -> insert_stmt t order = Ok s ->
  let cols := map c_name (filter (fun c => negb (c_identity c)) cs) in
  read_data d (render_dml d s) = Some (RInsert (table_of t) cols (seq 1 (length cols)) Fail).
Proof.
  intros d t order cs s Q E P H cols. destruct (insert_stmt_ok t order s H) as (cs' & E' & ->). rewrite E in E'. injection E' as <-.
  assert (N : names (not_identity cs) <> []). { destruct P as (c & P). apply plain_names in P. intros X. rewrite X in P. destruct P. }
  destruct (data_read d (QInsert (t_name t) (names (not_identity cs))) (conj Q N)) as (p & R & r & SN & ->).
  rewrite R. unfold says_name in SN. subst r. reflexivity.
Qed.
Print Assumptions C56_insert.

(** Insert-or-ignore.  PostgreSQL skips any duplicate; MySQL assigns the primary key columns to themselves; the
    others compare each listed identifying column that is not generated and insert a row that matches none. *)
Theorem C56_insert_or_ignore : forall d t order cs s, name_ok (t_name t) ->
  get_columns t order = Ok cs -> (exists c, plain cs c) -> merge_stmt d t order = Ok s ->
  (d = DMySQL -> t_pk t <> []) -> (by_merge d -> exists c, plain cs c /\ lookup_key t c) ->
  let cols := map c_name (filter (fun c => negb (c_identity c)) cs) in
  let params := seq 1 (length cols) in
  match d with
  | DPg => read_data d (render_dml d s) = Some (RInsert (table_of t) cols params (Skip None))
  | DMySQL => read_data d (render_dml d s) = Some (RInsert (table_of t) cols params (Assign None (map (fun c => (c, Present c)) (t_pk t))))
  | _ => exists keys, (forall c, In c keys <-> plain cs c /\ lookup_key t c) /\
      read_data d (render_dml d s) = Some (RMerge (table_of t) cols params (map (fun c => (c, c)) keys) None (Some (cols, cols)))
  end.
Proof.
  intros d t order cs s Q E P H PM PK cols params. unfold merge_stmt in H. rewrite E in H. cbn [bind] in H.
  assert (N : names (not_identity cs) <> []). { destruct P as (c & P). apply plain_names in P. intros X. rewrite X in P. destruct P. }
  change (names (not_identity cs)) with cols in *.
  assert (M : by_merge d -> (do ms <- match_columns t (not_identity cs); Ok (QMerge (t_name t) cols (names ms) None (Some cols))) = Ok s ->
    exists keys, (forall c, In c keys <-> plain cs c /\ lookup_key t c) /\
      read_data d (render_dml d s) = Some (RMerge (table_of t) cols params (map (fun c => (c, c)) keys) None (Some (cols, cols)))).
  { intros D H'. destruct (match_columns t (not_identity cs)) as [ms|] eqn:EM; cbn [bind] in H'; [|discriminate]. injection H' as <-.
    assert (K : forall c, In c (names ms) <-> plain cs c /\ lookup_key t c).
    { intros c. rewrite names_in. split.
      - intros (k & I & <-). apply (filter_res_in _ _ _ EM) in I as [I L]. split; [apply plain_names, names_in; eauto|]. now apply (lookup_iff _ _ _ L).
      - intros [Pc L]. apply plain_names, names_in in Pc as (k & I & <-). exists k. split; [|reflexivity]. apply (filter_res_in _ _ _ EM). split; [exact I|].
        destruct (filter_res_total _ _ _ EM k I) as (b & Hb). rewrite Hb. f_equal. now apply (lookup_iff _ _ _ Hb). }
    exists (names ms). split; [exact K|].
    assert (NM : names ms <> []). { destruct (PK D) as (c & X). apply K in X. intros Y. rewrite Y in X. destruct X. }
    assert (OK : data_ok d (QMerge (t_name t) cols (names ms) None (Some cols))).
    { unfold filled. destruct D. repeat split; auto; try discriminate; try congruence. }
    destruct (data_read d _ OK) as (p & R & r & SN & ->). rewrite R. unfold says_name in SN. subst r. reflexivity. }
  destruct d; try (apply M; [split; discriminate|exact H]); injection H as <-.
  - destruct (data_read DPg (QPgIgnore (t_name t) cols)) as (p & R & r & SN & ->); [simpl; auto|]. rewrite R. unfold says_name in SN. subst r. reflexivity.
  - destruct (data_read DMySQL (QMyInsert (t_name t) cols (MyKeepCols (t_pk t)))) as (p & R & r & SN & ->); [simpl; auto|]. rewrite R. unfold says_name in SN. subst r. reflexivity.
Qed.
Print Assumptions C56_insert_or_ignore.

(** Upsert on PostgreSQL and MySQL: all listed columns take parameters in order; the conflict target is the primary key;
    each value column of the table takes the value of the new row. *)
Theorem C56_upsert_on_key : forall d t order cs s, name_ok (t_name t) -> d = DPg \/ d = DMySQL ->
  get_columns t order = Ok cs -> cs <> [] -> t_pk t <> [] -> upsert_stmt d t order = Ok s ->
  let cols := map c_name cs in let params := seq 1 (length cs) in
  exists upd, (forall c, In c upd <-> value_column t c) /\
    read_data d (render_dml d s) = Some (RInsert (table_of t) cols params
      match d, upd with
      | DPg, [] => Skip (Some (t_pk t))
      | DPg, _ => Assign (Some (t_pk t)) (map (fun c => (c, Incoming c)) upd)
      | _, [] => Assign None (map (fun c => (c, Incoming c)) (t_pk t))
      | _, _ => Assign None (map (fun c => (c, Incoming c)) upd)
      end).
Proof.
  intros d t order cs s Q D E N PK H cols params. unfold upsert_stmt in H. rewrite E in H. cbn [bind] in H.
  assert (N' : names cs <> []) by (destruct cs; [congruence|discriminate]).
  assert (EP : params = in_order (names cs)) by (unfold params, in_order, names; now rewrite map_length).
  destruct (get_value_columns t None) as [vs|] eqn:EV; [|destruct D as [-> | ->]; discriminate].
  exists (names vs). split; [exact (value_columns_names t vs EV)|]. rewrite EP. clear EV EP params. change (map c_name cs) with (names cs) in cols. unfold cols.
  destruct D as [-> | ->]; cbn [bind] in H; injection H as <-.
  - destruct (data_read DPg (QPgUpsert (t_name t) (names cs) (t_pk t) (names vs))) as (p & R & SD); [simpl; auto|]. rewrite R.
    unfold says_data in SD. destruct (names vs); destruct SD as (r & SN & ->); unfold says_name in SN; subst r; reflexivity.
  - destruct vs as [|v vs].
    + destruct (data_read DMySQL (QMyInsert (t_name t) (names cs) (MyTakeCols (t_pk t)))) as (p & R & r & SN & ->); [simpl; auto|]. rewrite R. unfold says_name in SN. subst r. reflexivity.
    + destruct (data_read DMySQL (QMyInsert (t_name t) (names cs) (MyTakeCols (names (v :: vs))))) as (p & R & r & SN & ->); [repeat split; auto; discriminate|].
      rewrite R. unfold says_name in SN. subst r. reflexivity.
Qed.
Print Assumptions C56_upsert_on_key.

(** Upsert elsewhere: all listed columns take parameters in order; rows are matched on the listed identifying columns;
    matched rows take the other listed columns, except generated ones; unmatched ones are inserted without generated columns. *)
Theorem C56_upsert_by_merge : forall d t order cs s, name_ok (t_name t) -> by_merge d ->
  get_columns t order = Ok cs -> (exists c, In c (map c_name cs) /\ lookup_key t c) -> (exists c, plain cs c) -> upsert_stmt d t order = Ok s ->
  exists keys upd ins,
    (forall c, In c keys <-> In c (map c_name cs) /\ lookup_key t c) /\
    (forall c, In c upd <-> overwritten t cs c) /\
    ins = map c_name (filter (fun c => negb (c_identity c)) cs) /\
    read_data d (render_dml d s) = Some (RMerge (table_of t) (map c_name cs) (seq 1 (length cs)) (map (fun c => (c, c)) keys)
      match upd with [] => None | _ => Some (map (fun c => (c, c)) upd) end (Some (ins, ins))).
Proof.
  intros d t order cs s Q D E K P H.
  assert (NI : names (not_identity cs) <> []). { destruct P as (c & P). apply plain_names in P. intros X. rewrite X in P. destruct P. }
  assert (N : names cs <> []). { destruct K as (c & I & _). intros X. unfold names in X. rewrite X in I. destruct I. }
  pose proof (merge_shape d t order cs s D E H) as (ms & upd & ins & Es & HM & HI & HU).
  assert (EI : ins = Some (names (not_identity cs))).
  { destruct D as [D1 D2]. subst s. unfold upsert_stmt in H. rewrite E in H. cbn [bind] in H. destruct d; try congruence;
      (destruct (match_columns t cs); cbn [bind] in H; [|discriminate]; destruct (filter_res _ (not_identity cs)); cbn [bind] in H; [|discriminate];
       injection H as _ _ <-; unfold opt_names; destruct (not_identity cs); [now destruct NI|reflexivity]). }
  assert (FU : filled upd).
  { destruct D as [D1 D2]. subst s. unfold upsert_stmt in H. rewrite E in H. cbn [bind] in H. destruct d; try congruence;
      (destruct (match_columns t cs); cbn [bind] in H; [|discriminate]; destruct (filter_res _ (not_identity cs)) as [us|]; cbn [bind] in H; [|discriminate];
       injection H as _ <- _; unfold opt_names, filled; destruct us; discriminate). }
  exists ms, (match upd with Some l => l | None => [] end), (names (not_identity cs)).
  split; [exact HM|]. split; [|split; [reflexivity|]].
  - intros c. destruct upd as [l|]; [apply HU|]. split; [intros []|]. intros X. destruct (HU c X).
  - subst s ins.
    assert (NM : ms <> []). { destruct K as (c & X). apply HM in X. intros Y. rewrite Y in X. destruct X. }
    assert (OK : data_ok d (QMerge (t_name t) (names cs) ms upd (Some (names (not_identity cs))))).
    { destruct D. repeat split; auto; try (intros [= X]; auto); try (right; discriminate). }
    destruct (data_read d _ OK) as (p & R & r & SN & ->). rewrite R. unfold says_name in SN. subst r. unfold in_order, names. rewrite map_length.
    destruct upd as [[|u l]|]; [now destruct FU| |]; reflexivity.
Qed.
Print Assumptions C56_upsert_by_merge.

(** DELETE compares the primary key column with the only parameter. *)
Theorem C56_delete : forall d t s, name_ok (t_name t) -> NoDup (map c_name (t_columns t)) -> delete_stmt t = Ok s ->
  exists k, t_pk t = [k] /\ read_data d (render_dml d s) = Some (RDelete (table_of t) k 1).
Proof.
  intros d t s Q ND H. unfold delete_stmt in H. destruct (get_primary_column t) as [c|] eqn:E; cbn [bind] in H; [|discriminate]. injection H as <-.
  apply get_primary_column_ok in E; [|exact ND]. destruct E as [_ E]. exists (c_name c). split; [exact E|]. apply delete_read. exact Q.
Qed.
Print Assumptions C56_delete.

(** MySQL's driver first formats the text with Python's [%] operator: it asks for exactly one value per listed column (one for
    DELETE), provided no name has a per cent sign. *)
Definition no_percent (s : string) : Prop := count_char "%" s = 0.
Definition dml_table (s : dml) : qid :=
  match s with QInsert q _ | QPgIgnore q _ | QPgUpsert q _ _ _ | QMyInsert q _ _ | QMerge q _ _ _ _ | QDelete q _ => q end.
(** the columns that the statement mentions; the values it needs *)
Definition dml_mentions (s : dml) : list string :=
  match s with
  | QInsert _ cs | QPgIgnore _ cs => cs
  | QPgUpsert _ cs ks us => cs ++ ks ++ us
  | QMyInsert _ cs (MyKeepCols ks) | QMyInsert _ cs (MyTakeCols ks) => cs ++ ks
  | QMerge _ cs ms us is => cs ++ ms ++ match us with Some l => l | None => [] end ++ match is with Some l => l | None => [] end
  | QDelete _ c => [c]
  end.
Definition dml_arity (s : dml) : nat :=
  match s with QInsert _ cs | QPgIgnore _ cs | QPgUpsert _ cs _ _ | QMyInsert _ cs _ | QMerge _ cs _ _ _ => length cs | QDelete _ _ => 1 end.
Definition holes (s : string) (n : nat) : Prop := forall r, format_holes (s ++ r)%string = option_map (Nat.add n) (format_holes r).
Lemma app_str_assoc (a b c : string) : ((a ++ b) ++ c = a ++ (b ++ c))%string.
Proof. induction a as [|x a IH]; [reflexivity|]. change (String x ((a ++ b) ++ c) = String x (a ++ (b ++ c)))%string. now rewrite IH. Qed.
Lemma holes_app a b n m : holes a n -> holes b m -> holes (a ++ b)%string (n + m).
Proof. intros A B r. rewrite app_str_assoc, A, B. destruct (format_holes r); simpl; [|reflexivity]. f_equal. lia. Qed.
Lemma holes_plain s : no_percent s -> holes s 0.
Proof.
  unfold no_percent. induction s as [|c s IH]; intros H r; [change ("" ++ r)%string with r; now destruct (format_holes r)|].
  cbn [count_char] in H. change (String c s ++ r)%string with (String c (s ++ r)%string). cbn [format_holes].
  destruct (Ascii.eqb c "%") eqn:E; [simpl in H; lia|]. apply IH. simpl in H. exact H.
Qed.
Lemma holes_l a b m : holes a 0 -> holes b m -> holes (a ++ b)%string m.
Proof. exact (holes_app a b 0 m). Qed.
Lemma holes_r a b m : holes a m -> holes b 0 -> holes (a ++ b)%string m.
Proof. intros A B. rewrite <- (Nat.add_0_r m). now apply holes_app. Qed.
Lemma holes_hole : holes "%s" 1.
Proof. intros r. change ("%s" ++ r)%string with (String "%" (String "s" r)). cbn. now destruct (format_holes r). Qed.
Lemma holes_join sep l ns : holes sep 0 -> Forall2 holes l ns -> holes (join_str sep l) (list_sum ns).
Proof.
  intros HS H. induction H as [|x n l ns X H IH]; [apply holes_plain; reflexivity|]. destruct l as [|y l].
  - inversion H; subst. simpl. now rewrite Nat.add_0_r.
  - change (join_str sep (x :: y :: l)) with (x ++ (sep ++ join_str sep (y :: l)))%string. simpl list_sum.
    apply holes_app; [exact X|]. apply (holes_app _ _ 0); assumption.
Qed.
Lemma holes_join0 sep l : no_percent sep -> Forall no_percent l -> holes (join_str sep l) 0.
Proof.
  intros HS H. apply holes_plain. unfold no_percent in *. rewrite count_join by exact HS. induction H as [|x l X H IH]; [reflexivity|]. simpl. now rewrite X.
Qed.
Lemma no_percent_app a b : no_percent a -> no_percent b -> no_percent (a ++ b)%string.
Proof. unfold no_percent. intros A B. now rewrite count_app, A, B. Qed.
Lemma no_percent_quoted n : no_percent n -> no_percent (local_quoted n).
Proof. unfold no_percent. now rewrite count_quoted. Qed.
Lemma holes_values cols : holes (value_list DMySQL cols) (length cols).
Proof.
  unfold value_list. generalize 1. induction cols as [|c cols IH]; intros i; [apply holes_plain; reflexivity|].
  cbn [length seq map]. destruct cols as [|c2 cols]; [exact holes_hole|].
  change (holes ("%s" ++ (", " ++ join_str ", " (map (placeholder DMySQL) (seq (S i) (length (c2 :: cols)))))) (1 + (0 + length (c2 :: cols)))).
  apply holes_app; [exact holes_hole|]. apply holes_app; [apply holes_plain; reflexivity|apply IH].
Qed.
Lemma holes_cols l : Forall no_percent l -> holes (col_list l) 0.
Proof. intros H. apply holes_join0; [reflexivity|]. apply Forall_forall. intros x I. apply in_map_iff in I as (y & <- & I). apply no_percent_quoted. rewrite Forall_forall in H. auto. Qed.
Lemma holes_map (f : string -> string) sep l : no_percent sep -> (forall c, no_percent c -> no_percent (f c)) -> Forall no_percent l -> holes (join_str sep (map f l)) 0.
Proof. intros S F H. apply holes_join0; [exact S|]. apply Forall_forall. intros x I. apply in_map_iff in I as (y & <- & I). apply F. rewrite Forall_forall in H. auto. Qed.
Lemma holes_values_part cols : Forall no_percent cols -> holes (values_part DMySQL cols) (length cols).
Proof.
  intros H. unfold values_part. change (List.length cols) with (0 + (0 + (0 + List.length cols))). replace (List.length cols) with (List.length cols + 0) by lia.
  apply holes_app; [apply holes_plain; reflexivity|]. apply holes_app; [now apply holes_cols|]. apply holes_app; [apply holes_plain; reflexivity|].
  apply holes_app; [apply holes_values|apply holes_plain; reflexivity].
Qed.
Theorem C56_mysql_driver : forall s,
  match s with QInsert _ _ | QMyInsert _ _ _ | QDelete _ _ => True | _ => False end ->
  no_percent (quoted_id (dml_table s)) -> Forall no_percent (dml_mentions s) ->
  format_holes (render_dml DMySQL s) = Some (dml_arity s).
Proof.
  intros s K Q M. assert (X : holes (render_dml DMySQL s) (dml_arity s)).
  { destruct s as [q cols| | |q cols dup| |q c]; try destruct K; cbn [dml_table dml_mentions dml_arity] in *; cbn [render_dml]; unfold semi.
    - cbn [app join_str]. apply holes_l; [apply holes_l; [apply holes_plain; reflexivity|now apply holes_plain]|].
      apply holes_l; [apply holes_plain; reflexivity|]. apply holes_r; [now apply holes_values_part|].
      apply holes_plain. reflexivity.
    - assert (HC : Forall no_percent cols) by (destruct dup; apply Forall_app in M; apply M).
      assert (HD : holes (join_str ("," ++ NL) match dup with
              | MyKeepCols cs => map (fun c => local_quoted c ++ " = " ++ local_quoted c) cs
              | MyTakeCols cs => map (fun c => local_quoted c ++ " = VALUES(" ++ local_quoted c ++ ")") cs end)%string 0).
      { destruct dup as [cs|cs]; apply Forall_app in M as [_ M]; (apply holes_map; [reflexivity| |exact M]); intros c Hc; apply no_percent_quoted in Hc;
          repeat (apply no_percent_app; [exact Hc || reflexivity|]); exact Hc || reflexivity. }
      cbn [app]. match goal with |- holes (join_str ?a [?w; ?x; ?y; ?z; ?u]) _ =>
        change (join_str a [w; x; y; z; u]) with (w ++ (a ++ (x ++ (a ++ (y ++ (a ++ (z ++ (a ++ u))))))))%string end.
      apply holes_l; [apply holes_l; [apply holes_plain; reflexivity|now apply holes_plain]|].
      apply holes_l; [apply holes_plain; reflexivity|]. apply holes_r; [now apply holes_values_part|].
      do 3 (apply holes_l; [apply holes_plain; reflexivity|]). apply holes_l; [exact HD|]. apply holes_plain. reflexivity.
    - inversion M; subst. apply holes_l; [apply holes_plain; reflexivity|]. apply holes_l; [now apply holes_plain|].
      apply holes_l; [apply holes_plain; reflexivity|]. apply holes_l; [apply holes_plain; now apply no_percent_quoted|].
      apply holes_l; [apply holes_plain; reflexivity|]. exact holes_hole. }
  specialize (X ""). replace (render_dml DMySQL s ++ "")%string with (render_dml DMySQL s) in X; [rewrite X; simpl; now rewrite Nat.add_0_r|].
  generalize (render_dml DMySQL s). intros z. induction z as [|x z IH]; [reflexivity|]. change (String x z = String x (z ++ "")%string). now rewrite <- IH.
Qed.
Print Assumptions C56_mysql_driver.

(** The hypotheses are met; names are chosen to look like SQL, and column lists are permuted. *)
Definition ex_odd : table :=
  Tab (Qualified (Some "my ""db""") "T; DROP TABLE x--")
      [Col "id" bigint false None true None; Col "a"") VALUES (1" (TVarChar None) false None false None; Col "$2" (TVarChar None) true None false None]
      ["id"] [CUnique "uq" ["$2"]] None None.
Definition odd_order := Some ["$2"; "id"; "a"") VALUES (1"].
Example C56_ex_insert : exists cs s, get_columns ex_odd odd_order = Ok cs /\ plain cs "$2" /\ insert_stmt ex_odd odd_order = Ok s /\
  read_data DPg (render_dml DPg s) = Some (RInsert (Some "my ""db""", "T; DROP TABLE x--") ["$2"; "a"") VALUES (1"] [1; 2] Fail).
Proof.
  do 2 eexists. split; [reflexivity|]. split; [|split; [reflexivity|]].
  - eexists. split; [left; reflexivity|]. split; reflexivity.
  - vm_compute. reflexivity.
Qed.
Example C56_ex_upsert_merge : exists cs s, get_columns ex_odd odd_order = Ok cs /\ upsert_stmt DMSSQL ex_odd odd_order = Ok s /\
  read_data DMSSQL (render_dml DMSSQL s) = Some (RMerge (Some "my ""db""", "T; DROP TABLE x--") ["$2"; "id"; "a"") VALUES (1"] [1; 2; 3]
    [("$2", "$2"); ("id", "id")] (Some [("a"") VALUES (1", "a"") VALUES (1")]) (Some (["$2"; "a"") VALUES (1"], ["$2"; "a"") VALUES (1"]))).
Proof. do 2 eexists. split; [reflexivity|]. split; [reflexivity|]. vm_compute. reflexivity. Qed.
Example C56_ex_upsert_key : exists s, upsert_stmt DPg ex_odd odd_order = Ok s /\
  read_data DPg (render_dml DPg s) = Some (RInsert (Some "my ""db""", "T; DROP TABLE x--") ["$2"; "id"; "a"") VALUES (1"] [1; 2; 3]
    (Assign (Some ["id"]) [("a"") VALUES (1", Incoming "a"") VALUES (1"); ("$2", Incoming "$2")])).
Proof. eexists. split; [reflexivity|]. vm_compute. reflexivity. Qed.
Example C56_ex_ignore : exists s s', merge_stmt DMySQL ex_odd None = Ok s /\ merge_stmt DOracle ex_odd None = Ok s' /\
  read_data DMySQL (render_dml DMySQL s) = Some (RInsert (Some "my ""db""", "T; DROP TABLE x--") ["a"") VALUES (1"; "$2"] [1; 2] (Assign None [("id", Present "id")])) /\
  read_data DOracle (render_dml DOracle s') = Some (RMerge (Some "my ""db""", "T; DROP TABLE x--") ["a"") VALUES (1"; "$2"] [1; 2] [("$2", "$2")] None
    (Some (["a"") VALUES (1"; "$2"], ["a"") VALUES (1"; "$2"]))).
Proof. do 2 eexists. split; [reflexivity|]. split; [reflexivity|]. split; vm_compute; reflexivity. Qed.
Example C56_ex_delete : exists s, delete_stmt ex_odd = Ok s /\ read_data DMySQL (render_dml DMySQL s) = Some (RDelete (Some "my ""db""", "T; DROP TABLE x--") "id" 1) /\
  format_holes (render_dml DMySQL s) = Some 1.
Proof. eexists. split; [reflexivity|]. split; vm_compute; reflexivity. Qed.

(** Findings.  Insert-or-ignore into a table whose only identifying column is generated: the MERGE has no ON clause. *)
Theorem C56_ignore_generated_key_refuted : forall d, by_merge d -> exists t s,
  name_ok (t_name t) /\ (exists c, plain (t_columns t) c) /\ t_pk t = ["id"] /\ merge_stmt d t None = Ok s /\ read_data d (render_dml d s) = None.
Proof.
  intros d [D1 D2]. exists (Tab (Qualified None "Log") [Col "id" bigint false None true None; Col "msg" (TVarChar None) false None false None] ["id"] [] None None).
  destruct d; try congruence; (eexists; split; [exact Logic.I|]; split; [exists "msg"; eexists; split; [right; left; reflexivity|split; reflexivity]|]; split; [reflexivity|]; split; [reflexivity|vm_compute; reflexivity]).
Qed.
Print Assumptions C56_ignore_generated_key_refuted.
(** Inserting into a table that has only a generated column: [() VALUES ()]. *)
Theorem C56_insert_only_generated_refuted : forall d, exists t s, name_ok (t_name t) /\ insert_stmt t None = Ok s /\ read_data d (render_dml d s) = None.
Proof.
  intros d. exists (Tab (Qualified None "Seq") [Col "id" bigint false None true None] ["id"] [] None None). eexists. split; [exact Logic.I|]. split; [reflexivity|].
  destruct d; vm_compute; reflexivity.
Qed.
Print Assumptions C56_insert_only_generated_refuted.
(** A per cent sign in a name breaks the formatting by MySQL's driver. *)
Theorem C56_mysql_percent_refuted : exists t s, insert_stmt t None = Ok s /\
  read_data DMySQL (render_dml DMySQL s) = Some (RInsert (table_of t) ["id"; "100% of"] [1; 2] Fail) /\ format_holes (render_dml DMySQL s) = None.
Proof.
  exists (Tab (Qualified None "T") [Col "id" bigint false None false None; Col "100% of" bigint false None false None] ["id"] [] None None).
  eexists. split; [reflexivity|]. split; vm_compute; reflexivity.
Qed.
Print Assumptions C56_mysql_percent_refuted.
