(** Property theorems C01-C07, C49, C50: quoting, identifiers, LIKE patterns, constants. *)
From Verif Require Import PyStr QuoteModel QuoteSpec QuoteProofs ConstProofs.
Open Scope string_scope.

(** C01: an SQL scanner reads [quote s] as exactly [s] and stops exactly behind it. *)
Theorem C01_quote_scans_back : forall s rest,
  ~ begins QT rest -> sql_literal (quote s ++ rest) = Some (s, rest).
Proof. exact quote_scan. Qed.
Print Assumptions C01_quote_scans_back.

Example C01_ex1 : sql_literal (quote "O'Brien'; DROP TABLE x; --'" ++ ");")
                  = Some ("O'Brien'; DROP TABLE x; --'", ");").
Proof. reflexivity. Qed.
Example C01_ex1_hyp : ~ begins QT ");".
Proof. intros [r H]; discriminate. Qed.

Theorem C01_quote_injective : forall s t, quote s = quote t -> s = t.
Proof. exact quote_inj. Qed.
Print Assumptions C01_quote_injective.

(** C01: the value list of ENUM (...) / CREATE TYPE ... AS ENUM (...) reads back as the value list. *)
Theorem C01_enum_values_scan_back : forall vs rest,
  ~ begins QT rest -> literal_list (join_str ", " (map quote vs) ++ rest) vs rest.
Proof. exact literal_list_join. Qed.
Print Assumptions C01_enum_values_scan_back.

Theorem C01_enum_values_injective : forall vs ws,
  vs <> [] -> ws <> [] -> enum_type_str vs = enum_type_str ws -> vs = ws.
Proof.
  exact (fun vs ws N1 N2 E =>
    enum_list_inj vs ws N1 N2 (append_inj_r _ _ ")" (append_inj_l "ENUM (" _ _ E))).
Qed.
Print Assumptions C01_enum_values_injective.

Example C01_ex2 : enum_create_text (Qualified (Some "a") "E") ["x"; "it's"]
  = "CREATE TYPE ""a"".""E"" AS ENUM ('x', 'it''s');".
Proof. reflexivity. Qed.

(** C02: quoted identifiers read back. *)
Theorem C02_local_id_scans_back : forall id rest,
  ~ begins DQ rest -> sql_ident (local_quoted id ++ rest) = Some (id, rest).
Proof. exact local_quoted_scan. Qed.
Print Assumptions C02_local_id_scans_back.

Theorem C02_qualified_id_scans_back : forall ns id rest,
  ~ begins DQ rest -> (ns = None -> ~ begins "." rest) ->
  sql_qualified (quoted_id (Qualified ns id) ++ rest) = Some (ns, id, rest).
Proof. exact qualified_scan. Qed.
Print Assumptions C02_qualified_id_scans_back.

Theorem C02_qualified_id_injective : forall ns1 id1 ns2 id2,
  quoted_id (Qualified ns1 id1) = quoted_id (Qualified ns2 id2) -> ns1 = ns2 /\ id1 = id2.
Proof. exact qualified_inj. Qed.
Print Assumptions C02_qualified_id_injective.

(** the flat form reads back as the flat database name *)
Theorem C02_prefixed_id_scans_back : forall ns id rest,
  ~ begins DQ rest ->
  sql_ident (quoted_id (Prefixed ns id) ++ rest) = Some (local_id (Prefixed ns id), rest).
Proof. exact prefixed_scan. Qed.
Print Assumptions C02_prefixed_id_scans_back.

Theorem C02_mysql_backtick_scans_back : forall id rest,
  ~ begins BQ rest -> scan_token BQ (mysql_quoted_id id ++ rest) = Some (id, rest).
Proof. exact mysql_quoted_scan. Qed.
Print Assumptions C02_mysql_backtick_scans_back.

Example C02_ex : sql_qualified (quoted_id (Qualified (Some "my""s.ch") "a.""b") ++ " (x)")
  = Some (Some "my""s.ch", "a.""b", " (x)").
Proof. reflexivity. Qed.

(** A [GlobalId] is emitted verbatim; two components joined by a dot are not recoverable from it. *)
Theorem C02_global_id_unquoted_refuted :
  exists id, sql_ident (quoted_id (Global id)) <> Some (id, "").
Proof. exists "a b". discriminate. Qed.
Print Assumptions C02_global_id_unquoted_refuted.

(** C03: PostgreSQL description literals. *)
Theorem C03_pg_description_scans_back : forall s rest,
  ~ begins QT rest -> pg_literal (pg_quoted_string s ++ rest) = Some (s, rest).
Proof. exact pg_quoted_scan. Qed.
Print Assumptions C03_pg_description_scans_back.

Example C03_ex : pg_quoted_string ("a\'b" ++ NL ++ "c") = "E'a\\\'b\nc'" /\ pg_quoted_string "a\'b" = "'a\''b'".
Proof. split; reflexivity. Qed.

(** C04: Delta and Snowflake description literals. *)
Theorem C04_delta_description_scans_back : forall s rest,
  ~ begins QT rest -> delta_literal (delta_quoted_string s ++ rest) = Some (s, rest).
Proof. exact delta_quoted_scan. Qed.
Print Assumptions C04_delta_description_scans_back.

Theorem C04_snowflake_description_scans_back : forall s rest,
  ~ begins QT rest -> snow_literal (snow_quoted_string s ++ rest) = Some (s, rest).
Proof. exact snow_quoted_scan. Qed.
Print Assumptions C04_snowflake_description_scans_back.

Example C04_ex : snow_quoted_string "it's" = "'it''s'" /\ delta_quoted_string "it's" = "'it\'s'".
Proof. split; reflexivity. Qed.

(** C05: the pattern literal scans to a pattern that matches exactly the names with that prefix. *)
Theorem C05_like_prefix_exact : forall ns rest,
  ~ begins QT rest ->
  exists pattern,
    sql_literal (like_literal ns ++ rest) = Some (pattern, rest)
    /\ forall t, like "~" pattern t <-> starts_with (ns ++ "__") t = true.
Proof.
  exact (fun ns rest H => ex_intro _ (like_pattern ns)
           (conj (like_literal_scan ns rest H) (like_pattern_spec ns))).
Qed.
Print Assumptions C05_like_prefix_exact.

(** the pattern for the unqualified namespace: names without a double underscore *)
Theorem C05_like_infix_exact : forall t,
  like "~" "%~_~_%" t <-> exists a b, t = a ++ "__" ++ b.
Proof. exact like_infix. Qed.
Print Assumptions C05_like_infix_exact.

Example C05_ex : like_literal "a_%~'" = "'a~_~%~~''~_~_%'"
  /\ starts_with ("a_%~'" ++ "__") "a_%~'__table" = true.
Proof. split; reflexivity. Qed.

(** C06: flat identifiers are recoverable, hence distinct, under the guard; the guard is exact. *)
Theorem C06_flat_id_split_exact : forall ns id,
  split_composite_id (local_id (Prefixed (Some ns) id)) = (Some ns, id)
  <-> ~ (exists a b, ns = a ++ "__" ++ b) /\ ~ (exists a, ns = a ++ "_").
Proof. exact split_composite_iff. Qed.
Print Assumptions C06_flat_id_split_exact.

Theorem C06_flat_id_injective : forall ns1 id1 ns2 id2,
  flat_safe (ns1, id1) -> flat_safe (ns2, id2) ->
  local_id (Prefixed ns1 id1) = local_id (Prefixed ns2 id2) -> ns1 = ns2 /\ id1 = id2.
Proof. exact flat_inj. Qed.
Print Assumptions C06_flat_id_injective.

Example C06_ex_hyp : flat_safe (Some "my_ns", "x__y") /\ flat_safe (None, "t_1").
Proof.
  split; [apply split_composite_iff with (id := "t")| apply split_first_none]; reflexivity.
Qed.

Theorem C06_flat_id_collision_refuted :
  exists ns1 id1 ns2 id2,
    (ns1, id1) <> (ns2, id2) /\
    quoted_id (Prefixed (Some ns1) id1) = quoted_id (Prefixed (Some ns2) id2).
Proof. exists "a", "b__c", "a__b", "c". split; [discriminate| reflexivity]. Qed.
Print Assumptions C06_flat_id_collision_refuted.

(** C07: constants read back. *)
Theorem C07_constant_reads_back : forall v t,
  constant v = Ok t ->
  exists d, denote v = Some d /\
    exists n, forall fuel rest, n <= fuel -> ends_value rest ->
      read_val fuel (t ++ rest) = Some (d, rest).
Proof. exact constant_reads. Qed.
Print Assumptions C07_constant_reads_back.

Theorem C07_constant_injective : forall v w t, constant v = Ok t -> constant w = Ok t -> v = w.
Proof. exact constant_inj. Qed.
Print Assumptions C07_constant_injective.

Theorem C07_constant_rejects_unknown : forall v,
  match constant v, denote v with
  | Ok _, Some _ => True
  | Err e, None => e = "NotImplementedError"
  | _, _ => False
  end.
Proof. exact constant_denote. Qed.
Print Assumptions C07_constant_rejects_unknown.

Example C07_ex : constant (PTuple [PStr "a'b"; PTuple [PInt (-12)%Z; PBool true]; PTuple []])
  = Ok "('a''b', (-12, TRUE), ())"
  /\ read_val 20 ("('a''b', (-12, TRUE), ())" ++ ", x")
     = Some (SRow [SStr "a'b"; SRow [SInt (-12)%Z; SBool true]; SRow []], ", x").
Proof. split; reflexivity. Qed.

(** C49: MySQL sessions are opened without NO_BACKSLASH_ESCAPES, so [quote] is right for
    texts without a backslash, and wrong (early termination) for some with one. *)
Theorem C49_mysql_quote_scans_back_partial : forall s rest,
  has_char BS s = false -> ~ begins QT rest -> mysql_literal (quote s ++ rest) = Some (s, rest).
Proof. exact mysql_quote_plain. Qed.
Print Assumptions C49_mysql_quote_scans_back_partial.

Theorem C49_mysql_quote_injection_refuted :
  exists s, mysql_literal (quote s ++ ";") = Some ("'", "; DROP TABLE t; --';").
Proof. exists "\'; DROP TABLE t; --". reflexivity. Qed.
Print Assumptions C49_mysql_quote_injection_refuted.

(** C50: a schema name with an apostrophe breaks out of the EXEC('...') literal (MSSQL). *)
Theorem C50_mssql_schema_literal_partial : forall name text,
  has_char QT name = false -> mssql_create_schema name = Some text ->
  exists tail,
    text = "IF NOT EXISTS ( SELECT * FROM sys.schemas WHERE name = N" ++ quote name ++ " ) EXEC(" ++ tail
    /\ sql_literal tail = Some ("CREATE SCHEMA " ++ local_quoted name, ");").
Proof. exact mssql_schema_plain. Qed.
Print Assumptions C50_mssql_schema_literal_partial.

Theorem C50_mssql_schema_injection_refuted :
  exists name text, mssql_create_schema name = Some text /\
    exists tail, text = "IF NOT EXISTS ( SELECT * FROM sys.schemas WHERE name = N" ++ quote name ++ " ) EXEC(" ++ tail
      /\ exists v rest, sql_literal tail = Some (v, rest) /\ rest <> ");".
Proof.
  eexists "a'b", _. split; [reflexivity|].
  eexists. split; [reflexivity|]. do 2 eexists. split; [reflexivity|discriminate].
Qed.
Print Assumptions C50_mssql_schema_injection_refuted.
