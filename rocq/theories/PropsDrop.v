(** C60: dropping a schema removes the objects of the schema, all of them, and nothing else. *)
From Verif Require Import PyStr QuoteModel QuoteSpec QuoteProofs Types Objects SqlAst Ddl DbSpec CatSpec RefSpec RunProofs2 SqlText DropSchema DropSpec DropProofs1 DropProofs2 DropProofs3 DropProofs4.
From stdpp Require Import gmap strings.
From Coq Require Import Permutation.
Open Scope string_scope.

(** PostgreSQL.  Nothing outside the schema refers to it (else see the findings below). *)
Theorem C60_postgresql ns others D :
  db_ok D -> keys_exist D -> ns <> "" ->
  ~ foreign_key_into (in_schema ns) D -> ~ column_made_of (in_schema ns) D -> ~ member_made_of (in_schema ns) D ->
  leads_to DPg others (conn_drop_schema DPg ns) D (without_schema ns D) /\ db_ok (without_schema ns D).
Proof. intros OK KE N NF NC NM. split; [now apply pg_drops|now apply schema_gone_ok]. Qed.
Print Assumptions C60_postgresql.

(** SQL Server: whatever the order in which the server lists the constraints and the tables; foreign keys between the
    tables of the schema are no obstacle, in whatever direction (or in circles). *)
Theorem C60_mssql ns others D :
  db_ok D -> ns <> "" -> ~ foreign_key_into (in_schema ns) D ->
  (forall (k : okey) o, db_objs D !! k = Some o -> fst k = ns -> has_table D k) ->      (* SQL Server: tables only *)
  leads_to DMSSQL others (conn_drop_schema DMSSQL ns) D (without_schema ns D).
Proof. intros. now apply mssql_drops. Qed.
Print Assumptions C60_mssql.

(** MySQL: the tables whose names begin with the name of the namespace and two underscores. *)
Theorem C60_mysql ns others D :
  db_ok D -> has_char BS ns = false -> ~ foreign_key_into (prefixed_by ns) D ->
  (forall (k : okey) o, db_objs D !! k = Some o -> prefixed_by ns k -> has_table D k) ->
  leads_to DMySQL others (conn_drop_schema DMySQL ns) D (without_prefix ns D).
Proof. intros. now apply mysql_drops. Qed.
Print Assumptions C60_mysql.

(** Oracle: likewise; foreign keys of other tables to the dropped tables are dropped, these tables are otherwise unaltered. *)
Theorem C60_oracle ns others D :
  db_ok D -> (forall t, In t others -> ~ exists r, t = ns ++ "__" ++ r) ->
  (forall (k : okey) o, db_objs D !! k = Some o -> prefixed_by ns k -> has_table D k) ->
  leads_to DOracle others (conn_drop_schema DOracle ns) D (without_prefix_keys ns D) /\
  (~ foreign_key_into (prefixed_by ns) D -> without_prefix_keys ns D = without_prefix ns D).
Proof. intros OK NO TB. split; [now apply oracle_drops|apply keys_kept]. Qed.
Print Assumptions C60_oracle.

(** What these databases are, in terms of their objects. *)
Theorem C60_exactly_the_schema ns D k o :
  db_objs (without_schema ns D) !! k = Some o <-> db_objs D !! k = Some o /\ fst k <> ns.
Proof. unfold without_schema. cbn [db_objs]. rewrite map_filter_lookup_Some. reflexivity. Qed.
Print Assumptions C60_exactly_the_schema.
Theorem C60_exactly_the_prefix ns D k o :
  db_objs (without_prefix ns D) !! k = Some o <-> db_objs D !! k = Some o /\ ~ (fst k = "" /\ exists r, snd k = ns ++ "__" ++ r).
Proof. apply others_lookup. Qed.
Print Assumptions C60_exactly_the_prefix.

(** A catalog with one schema that has been created is gone after [drop_schema]: the database is as it was. *)
Theorem C60_create_then_drop d n c' l others D :
  d = DPg \/ d = DMSSQL /\ n_enums n = [] /\ n_structs n = [] ->
  cat_create d [n] = Ok (c', l) -> cat_wf d [n] -> refs_closed [n] -> n_name n <> "" -> db_ok D -> keys_exist D -> unused [n] D ->
  exists D1, runs (engine_of d) (l ++ cat_add_constraints d c') D D1 /\ leads_to d others (conn_drop_schema d (n_name n)) D1 D.
Proof.
  intros Ed H W R N OK KE U. destruct (create_runs d [n] c' l D H W R OK U) as [X OK1]. exists (plus_cat d [n] D). split; [exact X|].
  destruct (created_gone d n D W N OK U) as (E & NF & NC & NM). rewrite <- E at 2. destruct Ed as [->|(-> & E1 & E2)].
  - apply pg_drops; auto. now apply keys_exist_added.
  - apply mssql_drops; auto. intros k o L Ek. cbn [plus_cat db_objs] in L |- *. apply lookup_union_Some_raw in L as [L|[_ L]].
    + destruct (cat_objs_kind _ _ _ _ E1 E2 L) as (t & ->). exists t. cbn [plus_cat db_objs]. now apply lookup_union_Some_l.
    + exfalso. destruct U as [_ U]. destruct (U n (or_introl eq_refl)) as [?|NI]; [contradiction|]. apply NI. rewrite <- Ek. eapply no_schema; eauto. now rewrite Ek.
Qed.
Print Assumptions C60_create_then_drop.
Theorem C60_create_then_drop_flat d n m c' l others D :
  d = DMySQL /\ has_char BS m = false \/ d = DOracle /\ (forall t, In t others -> ~ exists r, t = m ++ "__" ++ r) ->
  n_enums n = [] -> n_structs n = [] -> (forall t, In t (n_tables n) -> exists id, t_name t = Prefixed (Some m) id) ->
  cat_create d [n] = Ok (c', l) -> cat_wf d [n] -> refs_closed [n] -> n_name n = "" -> db_ok D -> unused [n] D ->
  (forall k o, db_objs D !! k = Some o -> ~ prefixed_by m k) ->
  exists D1, runs (engine_of d) (l ++ cat_add_constraints d c') D D1 /\ leads_to d others (conn_drop_schema d m) D1 D.
Proof.
  intros Ed E1 E2 IDS H W R N OK U DP. destruct (create_runs d [n] c' l D H W R OK U) as [X OK1]. exists (plus_cat d [n] D). split; [exact X|].
  assert (IDS' : forall q, In q (ns_names n) -> exists id, q = Prefixed (Some m) id).
  { intros q I. unfold ns_names in I. rewrite E1, E2 in I. simpl in I. apply in_map_iff in I as (t & <- & I). now apply IDS. }
  destruct (created_prefix_gone d n m D W N IDS' OK DP) as (E & NF).
  assert (TB : forall (k : okey) o, db_objs (plus_cat d [n] D) !! k = Some o -> prefixed_by m k -> has_table (plus_cat d [n] D) k).
  { intros k o L P. cbn [plus_cat db_objs] in L. apply lookup_union_Some_raw in L as [L|[_ L]]; [|destruct (DP k o L P)].
    destruct (cat_objs_kind _ _ _ _ E1 E2 L) as (t & ->). exists t. cbn [plus_cat db_objs]. now apply lookup_union_Some_l. }
  rewrite <- E at 2. destruct Ed as [[-> B]|[-> NO]]; [now apply mysql_drops|]. rewrite <- keys_kept by exact NF. now apply oracle_drops.
Qed.
Print Assumptions C60_create_then_drop_flat.

(** The commands are read as they are meant, whatever characters the names have. *)
Definition written_for (d : Ddl.dialect) (c : cmd) : Prop :=
  match c with
  | DropKey t _ => quotable t /\ d <> DMySQL
  | DropTables l => forall t, In t l -> quotable t /\ (d = DMySQL -> scope_id t = None)
  | _ => d <> DMySQL
  end.
Theorem C60_text d c : written_for d c -> pieces (name_quote d) (String.length (drop_text d c)) (drop_text d c) = Some (says d c).
Proof.
  intros W. assert (R : reads (name_quote d) (drop_text d c) (says d c)); [|apply R; lia].
  assert (Q : d = DMySQL \/ name_quote d = DQ /\ d <> DMySQL) by (destruct d; (now left) || (right; split; [reflexivity|discriminate])).
  destruct c as [t n|l|t|[|] n|n]; cbn [written_for] in W; unfold drop_text, says.
  - destruct W as [W1 W2]. destruct Q as [Q|[-> _]]; [contradiction|]. apply reads_chars; [reflexivity|]. apply reads_qid; [exact W1|apply not_begins_char; discriminate|].
    apply reads_chars; [reflexivity|]. apply reads_local; [apply not_begins_char; discriminate|]. now apply reads_end.
  - apply reads_chars; [destruct d; reflexivity|]. destruct Q as [-> | [Eq Nd]].
    + apply reads_separated; try discriminate. intros t s ps I B R. destruct (W t I) as [_ S]. unfold name_pieces. rewrite (S eq_refl). simpl app. now apply reads_mysql.
    + rewrite Eq. replace (map _ l) with (map quoted_id l) by (apply map_ext; intros; destruct d; congruence). apply reads_separated; try discriminate.
      intros t s ps I B R. apply reads_qid; auto. apply (W t I).
  - destruct Q as [Q|[-> _]]; [contradiction|]. apply reads_chars; [reflexivity|]. apply reads_local; [apply not_begins_char; discriminate|]. rewrite <- (app_nil_r (chars _)). rewrite <- (append_nil_r " CASCADE CONSTRAINTS PURGE;").
    apply reads_chars; [reflexivity|apply reads_nil].
  - destruct Q as [Q|[-> _]]; [contradiction|]. apply reads_chars; [reflexivity|]. apply reads_local; [apply not_begins_char; discriminate|]. rewrite <- (app_nil_r (chars _)). rewrite <- (append_nil_r " CASCADE;").
    apply reads_chars; [reflexivity|apply reads_nil].
  - destruct Q as [Q|[-> _]]; [contradiction|]. apply reads_chars; [reflexivity|]. apply reads_local; [apply not_begins_char; discriminate|]. now apply reads_end.
  - destruct Q as [Q|[-> _]]; [contradiction|]. apply reads_chars; [reflexivity|]. apply reads_local; [apply not_begins_char; discriminate|]. now apply reads_end.
Qed.
Print Assumptions C60_text.
(** the commands of all programs are of this kind *)
Fixpoint commands_of (p : prog) (c : cmd) : Prop :=
  match p with
  | Done => False
  | AskPairs _ k => exists out, commands_of (k out) c
  | AskNames _ k => exists out, commands_of (k out) c
  | Execute l k => In c l \/ commands_of k c
  end.
Theorem C60_commands_written d ns c : commands_of (conn_drop_schema d ns) c -> written_for d c.
Proof.
  assert (B : forall d, d <> DMySQL -> commands_of (base_drop_schema d ns) c -> written_for d c).
  { intros e Ne. unfold base_drop_schema. destruct ns; [intros []|]. cbn [commands_of]. intros [[<-|[]]|[]]; destruct e; cbn; congruence. }
  destruct d; try (apply B; discriminate); clear B; cbn [conn_drop_schema].
  - intros (ts & H). destruct ts as [|t ts]; [destruct H|]. destruct H as [[<-|[]]|[]]. cbn [written_for]. intros q I. apply in_map_iff in I as (x & <- & _). split; [exact Logic.I|reflexivity].
  - unfold mssql_drop_schema. cbn [commands_of]. intros (cs & H). cbv zeta in H.
    assert (R : (exists ts, commands_of (match ts with [] => Execute [DropSchemaIfExists false ns] Done | _ => Execute [DropTables (map (fun t => Qualified (Some ns) t) ts)] (Execute [DropSchemaIfExists false ns] Done) end) c) -> written_for DMSSQL c).
    { intros (ts & X). assert (L : commands_of (Execute [DropSchemaIfExists false ns] Done) c -> written_for DMSSQL c) by (intros [[<-|[]]|[]]; discriminate).
      destruct ts as [|t ts]; [now apply L|]. destruct X as [[<-|[]]|X]; [|now apply L]. cbn [written_for]. intros q I. apply in_map_iff in I as (x & <- & _). split; [exact Logic.I|discriminate]. }
    destruct cs as [|p cs]; [now apply R|]. destruct H as [H|H]; [|now apply R]. apply in_map_iff in H as (x & <- & _). split; [exact Logic.I|discriminate].
  - intros (ts & H). destruct ts as [|t ts]; [destruct H|]. destruct H as [H|[]]. apply in_map_iff in H as (x & <- & _). discriminate.
Qed.
Print Assumptions C60_commands_written.

(** [drop_table_if_exists]: the name is read back; on Oracle the statement is inside a literal, names must have no apostrophe. *)
Theorem C60_table_if_exists_text d t : d <> DOracle -> quotable t ->
  pieces DQ (String.length (table_if_exists_text d t)) (table_if_exists_text d t) = Some (chars "DROP TABLE IF EXISTS " ++ name_pieces t ++ chars ";")%list.
Proof.
  intros N Q. assert (E : table_if_exists_text d t = "DROP TABLE IF EXISTS " ++ quoted_id t ++ ";") by (destruct d; reflexivity || congruence). rewrite E.
  assert (R : reads DQ ("DROP TABLE IF EXISTS " ++ quoted_id t ++ ";") (chars "DROP TABLE IF EXISTS " ++ name_pieces t ++ chars ";")); [|apply R; lia].
  apply reads_chars; [reflexivity|]. apply reads_qid; [exact Q|apply not_begins_char; discriminate|]. now apply reads_end.
Qed.
Print Assumptions C60_table_if_exists_text.
Lemma scan_plain q s rest : has_char q s = false -> ~ begins q rest -> scan_quoted q (s ++ String q rest) = Some (s, rest).
Proof.
  intros H B. induction s as [|c s IH]; [now apply scan_quoted_end|]. cbn in H. apply orb_false_iff in H as [H1 H2].
  change (String c s ++ String q rest) with (String c (s ++ String q rest)). cbn [scan_quoted]. rewrite H1, (IH H2). reflexivity.
Qed.
Definition oracle_literal_in (t : qid) (v rest : string) : Prop :=
  exists lit, table_if_exists_text DOracle t = "BEGIN" ++ NL ++ "    EXECUTE IMMEDIATE " ++ lit /\ sql_literal lit = Some (v, rest).
Definition after_statement : string := ";" ++ NL ++ "EXCEPTION WHEN OTHERS THEN IF SQLCODE != -942 THEN RAISE; END IF;" ++ NL ++ "END;".
Theorem C60_oracle_table_if_exists t : has_char QT (quoted_id t) = false ->
  oracle_literal_in t ("DROP TABLE " ++ quoted_id t ++ " CASCADE CONSTRAINTS PURGE") after_statement.
Proof.
  intros H. exists (String QT (("DROP TABLE " ++ quoted_id t ++ " CASCADE CONSTRAINTS PURGE") ++ String QT after_statement)). split.
  - unfold table_if_exists_text, after_statement. rewrite !append_assoc. reflexivity.
  - unfold sql_literal, scan_token. rewrite Ascii.eqb_refl. apply scan_plain; [|apply not_begins_char; discriminate].
    assert (A : forall a b, has_char QT (a ++ b) = has_char QT a || has_char QT b) by (induction a as [|c a IH]; intros b; [reflexivity|]; change (String c a ++ b) with (String c (a ++ b)); cbn [has_char]; rewrite IH; apply orb_assoc).
    rewrite !A, H. reflexivity.
Qed.
Print Assumptions C60_oracle_table_if_exists.
Theorem C60_oracle_table_if_exists_refuted : exists t v rest,
  oracle_literal_in t v rest /\ v <> "DROP TABLE " ++ quoted_id t ++ " CASCADE CONSTRAINTS PURGE".
Proof. exists (Qualified None "it's"). eexists _, _. split; [eexists; split; [reflexivity|vm_compute; reflexivity]|discriminate]. Qed.
Print Assumptions C60_oracle_table_if_exists_refuted.

(** ** Examples *)
Definition plain_col : dbcol := DbCol (TInt 8 true None None) false None false None.
Definition one_col (cons : gmap string constr) : dbobj := OTable (DbTab {[ "id" := plain_col ]} ["id"] cons None).
Definition key_to (q : qid) : gmap string constr := {[ "fk" := CForeign "fk" ["id"] q ["id"] ]}.
Definition two (k1 k2 k3 : okey) (c1 c2 c3 : gmap string constr) : gmap okey dbobj := <[ k1 := one_col c1 ]> (<[ k2 := one_col c2 ]> {[ k3 := one_col c3 ]}).
Lemma two_lookup k1 k2 k3 c1 c2 c3 k o : two k1 k2 k3 c1 c2 c3 !! k = Some o -> k = k1 /\ o = one_col c1 \/ k = k2 /\ o = one_col c2 \/ k = k3 /\ o = one_col c3.
Proof. unfold two. rewrite !lookup_insert_Some, lookup_singleton_Some. intuition congruence. Qed.
Lemma plain_ok D cons k : schema_ok D k = true -> cons = ∅ \/ (exists q c, cons = key_to q /\ db_objs D !! key_of q = Some (one_col c)) -> obj_ok D (one_col cons) /\ schema_ok D k = true.
Proof.
  intros S C. split; [|exact S]. split.
  - cbn. intros n c E. apply lookup_singleton_Some in E as [<- <-]. intros q [].
  - cbn [dt_cons dt_cols]. intros n x E. destruct C as [-> | (q & c & -> & L)]; [now rewrite lookup_empty in E|]. unfold key_to in E; apply lookup_singleton_Some in E as [<- <-]. split.
    + cbn. split; [reflexivity|]. eexists. split; [exact L|now left].
    + cbn. intros y [<-|[]]. rewrite lookup_singleton. eauto.
Qed.
(** two schemas; in the first one, two tables refer to each other *)
Definition circle : db := Db {[ "s"; "t" ]} (two ("s", "a") ("s", "b") ("t", "c") (key_to (Qualified (Some "s") "b")) (key_to (Qualified (Some "s") "a")) ∅).
Lemma circle_ok : db_ok circle.
Proof.
  intros k o L. apply two_lookup in L as [[-> ->]|[[-> ->]|[-> ->]]]; apply plain_ok; try (vm_compute; reflexivity); [right|right|left; reflexivity];
    (eexists _, _; split; [reflexivity|vm_compute; reflexivity]).
Qed.
Lemma circle_free : ~ foreign_key_into (in_schema "s") circle.
Proof.
  intros (k & t & m & f & cs & rt & rc & N & L & C & E). apply two_lookup in L as [[-> L]|[[-> L]|[-> L]]]; try (now apply N).
  injection L as ->. cbn in C. now rewrite lookup_empty in C.
Qed.
Example C60_mssql_example others : leads_to DMSSQL others (conn_drop_schema DMSSQL "s") circle (without_schema "s" circle)
  /\ without_schema "s" circle = Db {[ "t" ]} {[ ("t", "c") := one_col ∅ ]}.
Proof.
  split.
  - apply C60_mssql; [exact circle_ok|discriminate|exact circle_free|]. intros k o L _. unfold has_table. rewrite L. apply two_lookup in L as [[-> ->]|[[-> ->]|[-> ->]]]; eexists; reflexivity.
  - apply db_eq; [cbn [without_schema db_schemas circle]; set_solver|]. intros k. cbn [db_objs]. destruct (decide (k = ("t", "c"))) as [->|N]; [rewrite lookup_singleton; vm_compute; reflexivity|].
    rewrite lookup_singleton_ne by congruence. apply map_filter_lookup_None. destruct (db_objs circle !! k) as [o|] eqn:L; [right|now left].
    apply two_lookup in L as [[-> ->]|[[-> ->]|[-> ->]]]; [| |congruence]; intros x _ X; now apply X.
Qed.
Example C60_postgresql_example others : leads_to DPg others (conn_drop_schema DPg "s") circle (without_schema "s" circle).
Proof.
  apply C60_postgresql; [exact circle_ok| |discriminate|exact circle_free| |].
  - intros k t n L I. apply two_lookup in L as [[-> L]|[[-> L]|[-> L]]]; injection L as ->; cbn in *; destruct I as [<-|[]]; rewrite lookup_singleton; eauto.
  - intros (k & t & m & c & q & N & L & C & I & E). apply two_lookup in L as [[-> L]|[[-> L]|[-> L]]]; injection L as ->; cbn in C; apply lookup_singleton_Some in C as [<- <-]; destruct I.
  - intros (k & ms & com & m & ty & q & N & L & _). apply two_lookup in L as [[-> L]|[[-> L]|[-> L]]]; discriminate.
Qed.
(** the same tables without schemas: s__a and s__b refer to each other, s_c is none of them (an underscore is not a wildcard) *)
Definition circle_flat (c3 : gmap string constr) : db :=
  Db ∅ (two ("", "s__a") ("", "s__b") ("", "s_c") (key_to (Prefixed (Some "s") "b")) (key_to (Prefixed (Some "s") "a")) c3).
Lemma circle_flat_ok c3 : c3 = ∅ \/ c3 = key_to (Prefixed (Some "s") "a") -> db_ok (circle_flat c3).
Proof.
  intros H k o L. apply two_lookup in L as [[-> ->]|[[-> ->]|[-> ->]]]; apply plain_ok; try (vm_compute; reflexivity).
  - right. eexists _, _. split; [reflexivity|vm_compute; reflexivity].
  - right. eexists _, _. split; [reflexivity|vm_compute; reflexivity].
  - destruct H as [-> | ->]; [now left|right]. eexists _, _. split; [reflexivity|vm_compute; reflexivity].
Qed.
Lemma circle_flat_tables c3 (k : okey) o : db_objs (circle_flat c3) !! k = Some o -> prefixed_by "s" k -> has_table (circle_flat c3) k.
Proof. intros L _. unfold has_table. rewrite L. apply two_lookup in L as [[-> ->]|[[-> ->]|[-> ->]]]; eexists; reflexivity. Qed.
Lemma circle_flat_free : ~ foreign_key_into (prefixed_by "s") (circle_flat ∅).
Proof.
  intros (k & t & m & f & cs & rt & rc & N & L & C & E). apply two_lookup in L as [[-> L]|[[-> L]|[-> L]]]; try (apply N; apply prefixed_starts; split; reflexivity).
  injection L as ->. cbn in C. now rewrite lookup_empty in C.
Qed.
Example C60_mysql_example others : leads_to DMySQL others (conn_drop_schema DMySQL "s") (circle_flat ∅) (without_prefix "s" (circle_flat ∅)) /\
  db_objs (without_prefix "s" (circle_flat ∅)) !! ("", "s_c") = Some (one_col ∅) /\ db_objs (without_prefix "s" (circle_flat ∅)) !! ("", "s__a") = None.
Proof.
  split; [|split; vm_compute; reflexivity].
  apply C60_mysql; [apply circle_flat_ok; now left|reflexivity|exact circle_flat_free|apply circle_flat_tables].
Qed.
(** Oracle: a table outside keeps everything but its foreign key *)
Example C60_oracle_example : leads_to DOracle ["x__y"] (conn_drop_schema DOracle "s") (circle_flat (key_to (Prefixed (Some "s") "a"))) (without_prefix_keys "s" (circle_flat (key_to (Prefixed (Some "s") "a")))) /\
  db_objs (without_prefix_keys "s" (circle_flat (key_to (Prefixed (Some "s") "a")))) !! ("", "s_c") = Some (one_col ∅).
Proof.
  split; [|vm_compute; reflexivity]. apply C60_oracle; [apply circle_flat_ok; now right|intros t [<-|[]] (r & E); discriminate|apply circle_flat_tables].
Qed.

(** ** Findings *)
(** SQL Server, MySQL: a foreign key from outside the schema; the call fails. *)
Definition referred : db := Db {[ "s"; "t" ]} (two ("s", "a") ("s", "b") ("t", "c") ∅ ∅ (key_to (Qualified (Some "s") "a"))).
Lemma dangling_key D k t q n f cs rc : db_objs D !! k = Some (OTable t) -> dt_cons t !! n = Some (CForeign f cs q rc) -> db_objs D !! key_of q = None -> ~ db_ok D.
Proof. intros L C X OK. destruct (OK k _ L) as [[_ O] _]. destruct (O n _ C) as [[_ (y & Ly & _)] _]. congruence. Qed.
Theorem C60_mysql_referred_refuted : forall D', ~ leads_to DMySQL [] (conn_drop_schema DMySQL "s") (circle_flat (key_to (Prefixed (Some "s") "a"))) D'.
Proof.
  intros D' [_ H]. destruct (H ["s__a"; "s__b"]) as (D1 & (D2 & X & OK & _) & _).
  - exists (like_pattern "s"), ["s__a"; "s__b"], []. split; [vm_compute; reflexivity|]. split; [reflexivity|]. split; [split|].
    + repeat (constructor; [simpl; intuition discriminate|]). constructor.
    + intros t. rewrite like_prefixed, prefixed_starts. cbn [fst snd]. split.
      * intros [<-|[<-|[]]]; (split; [eexists; vm_compute; reflexivity|split; reflexivity]).
      * intros [(x & L) [_ P]]. apply two_lookup in L as [[E _]|[[E _]|[E _]]]; injection E as ->; simpl; auto. discriminate.
    + intros t. split; [intros []|]. intros [E _]. discriminate.
  - cbn [effect map key_of drop_at_once] in X. destruct X as (D3 & [_ ->] & D4 & [_ ->] & ->). revert OK. eapply (dangling_key _ ("", "s_c") _ _ "fk"); vm_compute; reflexivity.
Qed.
Print Assumptions C60_mysql_referred_refuted.
Theorem C60_mssql_referred_refuted : forall D', ~ leads_to DMSSQL [] (conn_drop_schema DMSSQL "s") referred D'.
Proof.
  intros D' [_ H]. specialize (H []). destruct H as [_ H].
  - exists "s". split; [reflexivity|]. split; [constructor|]. intros [t c]. split; [intros []|]. intros (tb & n & cs & rt & rc & L & C). cbn [fst snd] in *.
    apply two_lookup in L as [[E L]|[[E L]|[E L]]]; try discriminate; injection L as ->; cbn in C; now rewrite lookup_empty in C.
  - destruct (H ["a"; "b"]) as (D1 & (D2 & X & _ & _) & _).
    + exists "s". split; [reflexivity|]. split; [repeat (constructor; [simpl; intuition discriminate|]); constructor|]. intros t. split.
      * intros [<-|[<-|[]]]; eexists; vm_compute; reflexivity.
      * intros (x & L). apply two_lookup in L as [[E _]|[[E _]|[E _]]]; try discriminate; injection E as ->; simpl; auto.
    + cbn [effect map key_of drop_each] in X. destruct X as (D3 & [_ ->] & OK & _). revert OK. eapply (dangling_key _ ("t", "c") _ _ "fk"); vm_compute; reflexivity.
Qed.
Print Assumptions C60_mssql_referred_refuted.

(** PostgreSQL: CASCADE; a table of another schema with a column of a type of the schema loses the column. *)
Definition mood_col : dbcol := DbCol (TUser (Qualified (Some "s") "mood")) true None false None.
Definition moody_db : db := Db {[ "s"; "t" ]} (<[ ("s", "mood") := OEnum {[ "good" ]} ]> {[ ("t", "c") := OTable (DbTab {[ "id" := plain_col; "m" := mood_col ]} ["id"] ∅ None) ]}).
Theorem C60_postgresql_column_lost_refuted : exists D', leads_to DPg [] (conn_drop_schema DPg "s") moody_db D' /\ db_ok moody_db /\
  exists t t', db_objs moody_db !! ("t", "c") = Some (OTable t) /\ db_objs D' !! ("t", "c") = Some (OTable t') /\ is_Some (dt_cols t !! "m") /\ dt_cols t' !! "m" = None.
Proof.
  exists (cascade_schema "s" moody_db). split; [|split].
  - cbn [conn_drop_schema base_drop_schema leads_to]. exists (cascade_schema "s" moody_db). split; [|reflexivity]. exists (cascade_schema "s" moody_db). split; [vm_compute; reflexivity|]. split; [|reflexivity].
    intros k o L. unfold cascade_schema in L. cbn [db_objs moody_db] in L. rewrite lookup_fmap in L. destruct (filter _ _ !! k) as [o'|] eqn:F in L; [|discriminate]. injection L as <-.
    apply map_filter_lookup_Some in F as [F N]. apply lookup_insert_Some in F as [[<- _]|[_ F]]; [now destruct N|]. apply lookup_singleton_Some in F as [<- <-]. split; [|vm_compute; reflexivity]. split.
    + cbn [without_schema_refs dt_cols]. intros n c E. apply map_filter_lookup_Some in E as [E X]. apply lookup_insert_Some in E as [[<- <-]|[_ E]]; [intros q []|]. apply lookup_singleton_Some in E as [<- <-].
      exfalso. apply X. exists (Qualified (Some "s") "mood"). split; [now left|reflexivity].
    + cbn [without_schema_refs dt_cons]. intros n x E. apply map_filter_lookup_Some in E as [E _]. now rewrite lookup_empty in E.
  - intros k o L. cbn [db_objs moody_db] in L. apply lookup_insert_Some in L as [[<- <-]|[_ L]]; [split; [exact Logic.I|vm_compute; reflexivity]|].
    apply lookup_singleton_Some in L as [<- <-]. split; [|vm_compute; reflexivity]. split.
    + cbn [dt_cols]. intros n c E. apply lookup_insert_Some in E as [[<- <-]|[_ E]]; [intros q []|]. apply lookup_singleton_Some in E as [<- <-]. intros q [<-|[]]. eexists. split; [vm_compute; reflexivity|reflexivity].
    + cbn [dt_cons]. intros n x E. now rewrite lookup_empty in E.
  - eexists _, _. split; [vm_compute; reflexivity|]. split; [vm_compute; reflexivity|]. split; [eexists; vm_compute; reflexivity|vm_compute; reflexivity].
Qed.
Print Assumptions C60_postgresql_column_lost_refuted.

(** Oracle: the query also returns tables of other users; the statement for such a table fails. *)
Theorem C60_oracle_other_user_refuted : forall D', ~ leads_to DOracle ["s__x"] (conn_drop_schema DOracle "s") (circle_flat ∅) D'.
Proof.
  intros D' [_ H]. destruct (H ["s__x"; "s__a"; "s__b"]) as (D1 & (D2 & [(t & X) _] & _) & _); [|vm_compute in X; discriminate].
  exists (like_pattern "s"), ["s__a"; "s__b"], ["s__x"]. split; [vm_compute; reflexivity|]. split; [apply (Permutation_cons_append ["s__a"; "s__b"] "s__x")|]. split; [split|].
  - repeat (constructor; [simpl; intuition discriminate|]). constructor.
  - intros t. rewrite like_prefixed, prefixed_starts. cbn [fst snd]. split.
    + intros [<-|[<-|[]]]; (split; [eexists; vm_compute; reflexivity|split; reflexivity]).
    + intros [(x & L) [_ P]]. apply two_lookup in L as [[E _]|[[E _]|[E _]]]; injection E as ->; simpl; auto. discriminate.
  - intros t. split; [intros [<-|[]]|tauto]. split; [reflexivity|]. split; [now left|]. apply like_prefixed, prefixed_starts. split; reflexivity.
Qed.
Print Assumptions C60_oracle_other_user_refuted.

(** MySQL: a backslash at the end of the name escapes the escape character, and the tables of another namespace are dropped. *)
Theorem C60_mysql_backslash_refuted : exists D', leads_to DMySQL [] (conn_drop_schema DMySQL ("s" ++ str1 BS)) (circle_flat ∅) D' /\
  has_table (circle_flat ∅) ("", "s__a") /\ no_table D' ("", "s__a").
Proof.
  assert (LV : literal_value DMySQL (like_literal ("s" ++ str1 BS)) = Some (like_pattern "s")) by (vm_compute; reflexivity).
  destruct (proj1 (C60_mysql_example [])) as [A B]. exists (without_prefix "s" (circle_flat ∅)). split; [|split; [eexists; vm_compute; reflexivity|vm_compute; reflexivity]].
  assert (LS : literal_value DMySQL (like_literal "s") = Some (like_pattern "s")) by (vm_compute; reflexivity).
  cbn [conn_drop_schema]. unfold mysql_drop_schema. cbn [leads_to]. split.
  - destruct A as (out & p & own & oth & E & R). exists out. exists p, own, oth. split; [|exact R]. rewrite LV, <- LS. exact E.
  - intros out (p & own & oth & E & R). apply B. exists p, own, oth. split; [|exact R]. rewrite LS, <- LV. exact E.
Qed.
Print Assumptions C60_mysql_backslash_refuted.
