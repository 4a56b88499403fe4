{
 "claims": [
  {
   "property": "C01",
   "status": "proved",
   "theorems": [
    "C01_quote_scans_back",
    "C01_quote_injective",
    "C01_enum_values_scan_back",
    "C01_enum_values_injective"
   ],
   "note": ""
  },
  {
   "property": "C02",
   "status": "proved",
   "theorems": [
    "C02_local_id_scans_back",
    "C02_qualified_id_scans_back",
    "C02_qualified_id_injective",
    "C02_prefixed_id_scans_back",
    "C02_mysql_backtick_scans_back",
    "C02_global_id_unquoted_refuted"
   ],
   "note": "Refuted for GlobalId, whose quoted_id is unquoted."
  },
  {
   "property": "C03",
   "status": "proved",
   "theorems": [
    "C03_pg_description_scans_back"
   ],
   "note": ""
  },
  {
   "property": "C04",
   "status": "proved",
   "theorems": [
    "C04_delta_description_scans_back",
    "C04_snowflake_description_scans_back"
   ],
   "note": ""
  },
  {
   "property": "C05",
   "status": "proved",
   "theorems": [
    "C05_like_prefix_exact",
    "C05_like_infix_exact"
   ],
   "note": ""
  },
  {
   "property": "C06",
   "status": "proved",
   "theorems": [
    "C06_flat_id_split_exact",
    "C06_flat_id_injective",
    "C06_flat_id_collision_refuted"
   ],
   "note": "Proved under the proviso; the collision without it is the refuted theorem."
  },
  {
   "property": "C07",
   "status": "proved",
   "theorems": [
    "C07_constant_reads_back",
    "C07_constant_injective",
    "C07_constant_rejects_unknown"
   ],
   "note": "Strings, Booleans, integers, None-free nested tuples; floats, decimals and datetimes (text produced by the Python runtime) not modelled."
  },
  {
   "property": "C08",
   "status": "proved",
   "theorems": [
    "C08_history_refines_map",
    "C08_step_outcome",
    "C08_history_wellformed",
    "C08_constructor",
    "C08_split_by_membership",
    "C08_intersection_pairs",
    "C08_equality_ignores_order"
   ],
   "note": ""
  },
  {
   "property": "C09",
   "status": "proved",
   "theorems": [
    "C09_merge_succeeds_iff_agree",
    "C09_merge_is_union",
    "C09_merge_empty",
    "C09_merge_idempotent",
    "C09_merge_twice",
    "C09_merge_commutes",
    "C09_merge_associative",
    "C09_enum_table_labels_refuted"
   ],
   "note": "All keyed catalogs; equality of definitions is specified independently (MergeSpec). The refuted theorem is a finding: labels of enumeration tables are not compared and are lost."
  },
  {
   "property": "C10",
   "status": "proved",
   "theorems": [
    "C10_sort_is_dependency_order",
    "C10_array_reference_order_refuted"
   ],
   "note": ""
  },
  {
   "property": "C11",
   "status": "proved",
   "theorems": [
    "C11_create_builds_the_catalog",
    "C11_create_frame",
    "C11_enum_rows"
   ],
   "note": "Strict execution (every intermediate state consistent), all dialects; catalog well-formed and closed under references in creation order. Rows: enumeration tables get exactly their values, all other tables are empty."
  },
  {
   "property": "C12",
   "status": "proved",
   "theorems": [
    "C12_drop_undoes_create",
    "C12_drop_removes_exactly_the_catalog"
   ],
   "note": "Strict execution, all dialects."
  },
  {
   "property": "C13",
   "status": "partial",
   "theorems": [
    "C13_mutation_outcome_partial",
    "C13_mutation_reaches_target_partial",
    "C13_removed_namespaces_order_refuted",
    "C13_removed_tables_order_refuted",
    "C13_common_namespaces_order_refuted",
    "C13_new_namespace_first_refuted",
    "C13_drop_column_with_constraint_refuted",
    "C13_primary_key_change_refuted",
    "C13_identity_to_nullable_refuted",
    "C13_type_becomes_table_refuted",
    "C13_snowflake_description_refuted",
    "C13_delta_description_refuted",
    "C13_delta_default_refuted",
    "C13_snowflake_default_refuted"
   ],
   "note": "Outcome of every mutation script between compatible catalogs (all dialects; on Delta and Snowflake, whose statements are interpreted as the default engine does, compatible means also that no description changes and no changed default is respelled on creation: C13_snowflake_description_refuted, C13_delta_default_refuted, C13_snowflake_default_refuted); exact reachability. Missing: consistency of intermediate states, incompatible changes - each shown false by a refuted theorem (findings)."
  },
  {
   "property": "C14",
   "status": "proved",
   "theorems": [
    "C14_equal_catalogs_no_statement",
    "C14_equal_catalogs_succeed",
    "C14_no_statement_means_equal",
    "C14_primary_key_refuted"
   ],
   "note": "No-op on equal catalogs for every dialect and option set; converse for compatible catalogs; primary-key-only change goes unnoticed (refuted)."
  },
  {
   "property": "C15",
   "status": "proved",
   "theorems": [
    "C15_drop_table",
    "C15_drop_type",
    "C15_drop_schema",
    "C15_nothing_dropped",
    "C15_protected_objects_survive",
    "C15_constraints_of_removed_namespace_refuted",
    "C15_replaced_enum_renamed_refuted"
   ],
   "note": "Drop statements characterised for all catalogs and options; effects for compatible catalogs. Two unprotected effects are refuted theorems (findings)."
  },
  {
   "property": "C16",
   "status": "proved",
   "theorems": [
    "C16_only_named_objects",
    "C16_only_catalog_objects",
    "C16_unchanged_table",
    "C16_retained_column",
    "C16_stored_values",
    "C16_other_rows"
   ],
   "note": "Statement level and row level (DataSpec.v); exceptions stated in keeps_columns: columns named like a soft-deleted one, NULL/0 in a column that becomes AUTO_INCREMENT."
  },
  {
   "property": "C17",
   "status": "proved",
   "theorems": [
    "C17_refused_iff_value_lost",
    "C17_adds_missing_values_in_order",
    "C17_result_is_target"
   ],
   "note": ""
  },
  {
   "property": "C18",
   "status": "partial",
   "theorems": [
    "C18_pg_enum_becomes_table",
    "C18_mysql_enum_becomes_key",
    "C18_mysql_text_becomes_key",
    "C18_existing_lookup",
    "C18_not_null_column_refuted",
    "C18_lookup_with_other_name_refuted",
    "C18_mysql_null_text_refuted"
   ],
   "note": "Proved at catalog level for PostgreSQL (enumeration type replaced by a lookup table of the same name; existing unchanged lookup table with all labels) and MySQL (inline enumeration, text). Missing: lookup table in another namespace, or an existing lookup table whose own definition changes. Refuted: NOT NULL columns of populated tables on PostgreSQL, lookup table with another name than the type (labels lost), MySQL text columns with NULLs."
  },
  {
   "property": "C19",
   "status": "proved",
   "theorems": [
    "C19_struct_reaches_target",
    "C19_common_members_stay",
    "C19_empty_only_if_equal",
    "C19_nothing_if_members_agree_refuted"
   ],
   "note": ""
  },
  {
   "property": "C20",
   "status": "partial",
   "theorems": [
    "C20_column_reaches_target_partial",
    "C20_columns_of_table",
    "C20_nothing_if_equal",
    "C20_nothing_only_if_equal",
    "C20_mssql_refuses_identity_change",
    "C20_identity_to_nullable_refuted",
    "C20_snowflake_default_refuted"
   ],
   "note": "All dialects (Delta and Snowflake: changed defaults must be created as they are altered, default_as_is); refuted for identity-to-nullable (PostgreSQL) and Snowflake timestamp defaults."
  },
  {
   "property": "C21",
   "status": "proved",
   "theorems": [
    "C21_state_follows_database",
    "C21_create_drop_repeatedly",
    "C21_raising_call_keeps_state",
    "C21_mutate_keeps_state",
    "C21_failed_execution_refuted",
    "C21_retry_after_failure_refuted",
    "C21_success_executes_script",
    "C21_success_executes_drop"
   ],
   "note": "Histories of create/drop calls (some raising) whose scripts are executed completely, options at their defaults, steps for which C13 is proved. A failing execution leaves the believed state ahead of the database (refuted, finding)."
  },
  {
   "property": "C22",
   "status": "proved",
   "theorems": [
    "C22_success_executes_script",
    "C22_synchronize_reaches_target",
    "C22_second_synchronize_does_nothing",
    "C22_failed_synchronize_not_advanced"
   ],
   "note": "Modulo the explorer's faithfulness for the target (hypothesis `sees`, stated on the database); failure leaves the state at what discovery found."
  },
  {
   "property": "C23",
   "status": "proved",
   "theorems": [
    "C23_insert_columns",
    "C23_insert_aligned",
    "C23_mysql_placeholders",
    "C23_mysql_percent_refuted",
    "C23_identity_rows_refuted"
   ],
   "note": "Columns, alignment and refusal proved; placeholder count of MySQL text proved for names without %. Findings: % in column names, identity columns with insert_rows (refuted theorems)."
  },
  {
   "property": "C24",
   "status": "proved",
   "theorems": [
    "C24_one_record",
    "C24_batch",
    "C24_idempotent",
    "C24_succeeds_and_keys_unique",
    "C24_identity_key_not_idempotent_refuted",
    "C24_composite_key_refused",
    "C24_no_key_column_refused",
    "C24_two_rows_refuted"
   ],
   "note": "All MERGE dialects, all tables/orders/contents/batches; idempotence for records identified by a column that insertion writes, the exceptions are refuted theorems (findings)."
  },
  {
   "property": "C25",
   "status": "partial",
   "theorems": [
    "C25_batch_full_columns",
    "C25_idempotent_full_columns",
    "C25_partial_columns_refuted",
    "C25_mysql_other_key_refuted"
   ],
   "note": "Full column lists proved (MySQL: tables whose only key is the primary key); partial column lists and other MySQL keys are refuted (findings)."
  },
  {
   "property": "C26",
   "status": "proved",
   "theorems": [
    "C26_batches_cut_the_stream",
    "C26_concatenation_is_the_input",
    "C26_batch_sizes",
    "C26_processing_independent_of_batch_size"
   ],
   "note": "Any positive batch size; synchronous and asynchronous loops have the same body."
  },
  {
   "property": "C27",
   "status": "proved",
   "theorems": [
    "C27_records_aligned",
    "C27_inserted_rows",
    "C27_copied_rows",
    "C27_unknown_name_refused",
    "C27_omitted_by_type_only_refuted",
    "C27_identity_without_names_refuted",
    "C27_long_row_cut_refuted"
   ],
   "note": "All dialects, all catalogs with sound tables; the value transformer of the dialect and the iteration order of sets are parameters. End to end with the INSERT statement (C27_inserted_rows) and with COPY on PostgreSQL and Redshift (C27_copied_rows: with or without names, generated columns too). Findings as refuted theorems: omission by type only, identity columns without names (INSERT), rows longer than the types."
  },
  {
   "property": "C28",
   "status": "proved",
   "theorems": [
    "C28_one_to_one",
    "C28_lookup_grows",
    "C28_history",
    "C28_succeeds",
    "C28_null_list_refuted",
    "C28_plain_key_refuted"
   ],
   "note": "All dialects; the database is assumed to generate unused integer keys (fresh_keys) and to compare labels exactly. Histories of calls; success theorem. Findings: NULL lists, lookup tables whose key is not generated."
  },
  {
   "property": "C29",
   "status": "proved",
   "theorems": [
    "C29_lossless",
    "C29_order_independent",
    "C29_refused_iff",
    "C29_unlimited_absorbs",
    "C29_unsigned_lost_refuted",
    "C29_mixed_classes_refuted",
    "C29_oracle_integers_refuted"
   ],
   "note": "All lists of types of one engine. Unsigned integer types must be narrower than the result (or all types equal). _refuted: unsigned type of the result's width loses values; lists mixing engine classes depend on order; two Oracle integer types raise TypeError."
  },
  {
   "property": "C30",
   "status": "proved",
   "theorems": [
    "C30_mysql",
    "C30_mysql_text_iff",
    "C30_mssql",
    "C30_oracle",
    "C30_postgresql",
    "C30_integer_range_refuted",
    "C30_postgresql_exceptions_refuted",
    "C30_mysql_exceptions_refuted",
    "C30_mssql_exceptions_refuted",
    "C30_oracle_exceptions_refuted"
   ],
   "note": "MySQL, SQL Server, Oracle, PostgreSQL, for the stated classes of types with all parameter values, against a table of what the servers report (from their manuals). _refuted: integer ranges, PostgreSQL intervals/time precision/decimal(p)/float/array limits/user types named like built-ins, MySQL real/decimal/apostrophes in enums, SQL Server float/time/decimal, Oracle decimal/timestamp(p)/float."
  },
  {
   "property": "C31",
   "status": "proved",
   "theorems": [
    "C31_text_wide_enough",
    "C31_text_accepted_iff",
    "C31_mysql_limit_refused",
    "C31_text_multibyte",
    "C31_unlimited_text",
    "C31_mysql_plain_text",
    "C31_bytes_wide_enough",
    "C31_bytes_accepted_iff",
    "C31_integers_wide_enough",
    "C31_integers_accepted_iff",
    "C31_multibyte_refuted",
    "C31_mssql_multibyte_refuted",
    "C31_mysql_unlimited_refuted",
    "C31_mssql_limit_rejected_refuted",
    "C31_mssql_tinyint_refuted",
    "C31_unsigned_refuted",
    "C31_oracle_huge_refuted"
   ],
   "note": "All limits and widths for MySQL, SQL Server, Oracle and PostgreSQL against a table of what the servers store (from their manuals). _refuted: multi-byte texts, MySQL's unlimited text, SQL Server limits 8001.. and tinyint, unsigned integers, huge Oracle limits."
  },
  {
   "property": "C32",
   "status": "proved",
   "theorems": [
    "C32_unique_regrouped",
    "C32_rows_always_tell",
    "C32_foreign_regrouped",
    "C32_foreign_refused",
    "C32_query_by_position",
    "C32_oracle_query_refuted",
    "C32_oracle_query_single",
    "C32_reordered_reference_refuted"
   ],
   "note": "Both factories for every interleaving; refusal exactly when rows of one name disagree on the table; _refuted: the Oracle catalog query joins by constraint name only (composite keys), the ANSI query pairs by position of the referenced constraint."
  },
  {
   "property": "C33",
   "status": "proved",
   "theorems": [
    "C33_mysql_ids_name_the_tables",
    "C33_oracle_ids_name_the_tables",
    "C33_mysql_isolated",
    "C33_oracle_isolated",
    "C33_drop_schema_isolated",
    "C33_nested_names_refuted",
    "C33_drop_schema_nested_refuted",
    "C33_synchronize_drops_foreign_table_refuted",
    "C33_oracle_dollar_refuted"
   ],
   "note": "MySQL and Oracle, discovery and drop_schema, through the LIKE semantics of C05. _refuted: namespace \"a\" takes, drops and (on synchronize) removes the tables of \"a__b\"; Oracle misses names with \"$\"."
  },
  {
   "property": "C34",
   "status": "proved",
   "theorems": [
    "C34_fields_become_columns",
    "C34_class_without_key_refused",
    "C34_auto_default",
    "C34_auto_default_value",
    "C34_several_keys_refuted",
    "C34_auto_default_label_refuted"
   ],
   "note": "All classes, all dialects' options. That a class with several key fields is accepted (only the first is the key) is shown by the refuted theorem (finding)."
  },
  {
   "property": "C35",
   "status": "proved",
   "theorems": [
    "C35_foreign_keys_closed",
    "C35_types_closed",
    "C35_dialects",
    "C35_shared_schema_refuted",
    "C35_join_table_name_refuted",
    "C35_single_member_refuted",
    "C35_module_without_entity_refuted",
    "C35_array_of_structures_refuted",
    "C35_unqualified_types_refuted",
    "C35_value_attribute_refuted"
   ],
   "note": "All class sets, all options, all dialects, qualified and prefixed names; the provisos are the records ordinary, complete and ordinary_types of CloseSpec.v. That each proviso is needed is shown by refuted theorems (findings): shared schema, class named like a join table, one-member enumeration, module without entity, array of structures on Delta, enumeration types with prefixed names, value attribute called id."
  },
  {
   "property": "C36",
   "status": "partial",
   "theorems": [
    "C36_fixed_width_integers_fit_partial",
    "C36_unsigned_refuted",
    "C36_evicted_type_refuted"
   ],
   "note": "Proved for int8..int64 and uint8 on PostgreSQL, MySQL, SQL Server, Oracle while the typing cache holds the type; refuted for uint16/32/64 (maximum does not fit) and when the cache lost the type (findings)."
  },
  {
   "property": "C37",
   "status": "proved",
   "theorems": [
    "C37_names_distinct",
    "C37_unique_kept",
    "C37_foreign_kept",
    "C37_union_kept",
    "C37_class_underscore_refuted",
    "C37_same_enum_name_refuted",
    "C37_set_field_refuted"
   ],
   "note": "All class sets, options and dialects, qualified and prefixed names, including primary key names; provisos are the record separable of NamesSpec.v (class names without underscore or dot, modules in different schemas, ...). No constraint is lost through its name (unique, foreign, discriminated). Refuted (findings): underscore in a class name, same-named enumerations of two modules on Oracle, set field next to a unique field named like the join."
  },
  {
   "property": "C38",
   "status": "partial",
   "theorems": [
    "C38_one_field_per_column_partial",
    "C38_columns_come_back_partial",
    "C38_references_name_classes",
    "C38_class_names_unique",
    "C38_primary_key_refuted",
    "C38_nullable_reference_refuted",
    "C38_type_refuted",
    "C38_default_refuted",
    "C38_keyword_refuted"
   ],
   "note": "Proved: generated class names are distinct and references name existing classes; one field per column with its name, default and optionality; columns with the listed types of each engine, no default, no reserved name and no reference come back with name, type, nullability and order. Refuted as theorems (findings): the primary key is never marked, so no generated class is accepted as a table; nullable references come back required; decimals with precision, time zones, fixed-length texts, FLOAT without precision do not come back; defaults are quoted again; reserved names get an underscore."
  },
  {
   "property": "C39",
   "status": "proved",
   "theorems": [
    "C39_write_read",
    "C39_empty_line_refuted",
    "C39_header_not_escaped_refuted"
   ],
   "note": "For every codec that obeys the stated laws of the external tsv package (an instance with escapes is proved sound), every mapping order and every history of write calls. _refuted: empty line ends the file; header names are not escaped."
  },
  {
   "property": "C40",
   "status": "proved",
   "theorems": [
    "C40_mapping_rows",
    "C40_mapping_refused",
    "C40_object_rows",
    "C40_object_refused",
    "C40_tuple_rows",
    "C40_scalar_rows",
    "C40_signatures_agree",
    "C40_query_one",
    "C40_oracle_by_position_refuted",
    "C40_drivers_disagree_on_defaults_refuted",
    "C40_uneven_records_refuted"
   ],
   "note": "All drivers (mapping, object, positional rows), all result sets with distinct column names; acceptance characterised exactly. _refuted: Oracle fills fields by position; drivers disagree on defaults; only the first raw record is checked."
  },
  {
   "property": "C41",
   "status": "partial",
   "theorems": [
    "C41_attempts_obey_mode",
    "C41_connection_is_as_secure_as_required",
    "C41_never_plaintext",
    "C41_at_most_two_attempts",
    "C41_fallback",
    "C41_postgresql_disable_refuted",
    "C41_postgresql_allow_refuted",
    "C41_mssql_verify_refuted",
    "C41_oracle_require_refuted"
   ],
   "note": "Proved for MySQL (driver that takes no context as no TLS) and, for require/verify_ca/verify_full, for every driver that uses the given context. Refuted for PostgreSQL disable/allow (asyncpg's default mode) and for SQL Server and Oracle, which ignore the mode (findings)."
  },
  {
   "property": "C42",
   "status": "proved",
   "theorems": [
    "C42_percent_coding_round_trip",
    "C42_percent_coding_is_safe",
    "C42_percent_coding_alphabet",
    "C42_connection_string_parses",
    "C42_credentials_not_confused",
    "C42_printing_hides_password",
    "C42_printed_parameters_read_back",
    "C42_database_not_decoded_refuted",
    "C42_mode_is_checked"
   ],
   "note": "UTF-8 bytes; user, password, host, port, plain database names and mode. Database names that need encoding are not decoded (refuted, finding)."
  },
  {
   "property": "C43",
   "status": "proved",
   "theorems": [
    "C43_registry_is_partial_map",
    "C43_refused_call_changes_nothing",
    "C43_discovery",
    "C43_placeholder_raises"
   ],
   "note": "Every call history, plus discovery of bundled dialects."
  },
  {
   "property": "C44",
   "status": "proved",
   "theorems": [
    "C44_redshift_split",
    "C44_oracle_split",
    "C44_oracle_block",
    "C44_stops_at_first_failure",
    "C44_generated_oracle_script",
    "C44_literal_refuted",
    "C44_block_then_statement_refuted"
   ],
   "note": "Under the stated proviso, also for every script of the Oracle generator; label with a line ending in a semicolon is torn apart (refuted, finding)."
  },
  {
   "property": "C45",
   "status": "partial",
   "theorems": [
    "C45_values_within_bounds_partial",
    "C45_dates_between",
    "C45_integer_keys_distinct",
    "C45_uuid_keys_distinct",
    "C45_generation_succeeds",
    "C45_foreign_keys_refuted",
    "C45_unique_refuted",
    "C45_key_range_refuted",
    "C45_fixed_length_refuted"
   ],
   "note": "Whatever the random stream and clock: as many objects as asked for, each value of the declared type and within declared bounds (sane annotations; dates between the fixed start and the clock), integer keys are exactly 0..n-1 (UUID keys distinct unless the source repeats), and generation never fails for supported satisfiable declarations. Refuted: references are not keys of the referenced objects, Unique values may repeat, keys ignore the declared integer range, fixed lengths are ignored and sets may repeat elements."
  },
  {
   "property": "C46",
   "status": "proved",
   "theorems": [
    "C46_extend_keeps_present_statements",
    "C46_refusal_at_first_blank",
    "C46_never_blank",
    "C46_join_none_iff_empty",
    "C46_join_nested",
    "C46_mutation_script_never_blank",
    "C46_empty_statement_refuted"
   ],
   "note": "ASCII white space."
  },
  {
   "property": "C47",
   "status": "proved",
   "theorems": [
    "C47_unique_column",
    "C47_relation",
    "C47_primary_column",
    "C47_get_primary_column",
    "C47_lookup_column",
    "C47_lookup_table",
    "C47_columns_in_order",
    "C47_value_columns"
   ],
   "note": ""
  },
  {
   "property": "C48",
   "status": "proved",
   "theorems": [
    "C48_delete_exact"
   ],
   "note": "Key transformers (enumerations) not modelled here."
  },
  {
   "property": "C49",
   "status": "partial",
   "theorems": [
    "C49_mysql_quote_scans_back_partial",
    "C49_mysql_quote_injection_refuted"
   ],
   "note": "Holds for texts without backslash; refuted in general (finding)."
  },
  {
   "property": "C50",
   "status": "partial",
   "theorems": [
    "C50_mssql_schema_literal_partial",
    "C50_mssql_schema_injection_refuted"
   ],
   "note": "Holds for names without apostrophes; refuted in general (finding)."
  },
  {
   "property": "C51",
   "status": "proved",
   "theorems": [
    "C51_int_is_64_bit",
    "C51_text_limit",
    "C51_unlimited_text",
    "C51_literals_fit",
    "C51_integer_range"
   ],
   "note": "All classes, all ways to declare the field, all lengths/ranges/literals; server capacities from Capacity.v; annotations the user asked to skip excluded."
  },
  {
   "property": "C52",
   "status": "proved",
   "theorems": [
    "C52_type_keeps_members",
    "C52_inline_keeps_members",
    "C52_check_keeps_members",
    "C52_lookup_table_keeps_members",
    "C52_extensible_keeps_members"
   ],
   "note": "All class sets and options; provisos are the records ordinary, complete and ordinary_types of CloseSpec.v; lookup tables for enumerations of strings or integers."
  },
  {
   "property": "C53",
   "status": "proved",
   "theorems": [
    "C53_postgresql_table",
    "C53_postgresql_namespace",
    "C53_postgresql_discover",
    "C53_postgresql_synchronize_twice",
    "C53_timestamp_default",
    "C53_has_table",
    "C53_has_column",
    "C53_cast_default_refuted",
    "C53_check_constraint_refuted",
    "C53_empty_schema_nameless"
   ],
   "note": "PostgreSQL explorer complete (get_struct, get_table, get_namespace, has_table, has_column, discover), over system catalogs specified in PgCatSpec.v. Provisos in ExploreSpec.v (tab_seen, struct_seen, ns_seen): reported types of C30, defaults reported without casts other than the timestamp one, no CHECK constraints, no comments of composite-type members, constraint rows delivered in column order. What is not read back is proved as _refuted theorems (cast defaults, CHECK constraints, empty schemas, views, key order without ORDER BY, comments looked up without catalog, array members, current schema)."
  },
  {
   "property": "C54",
   "status": "proved",
   "theorems": [
    "C54_statement",
    "C54_script",
    "C54_mutate_script",
    "C54_mutate_script_always",
    "C54_create_script",
    "C54_drop_script",
    "C54_drop_constraints_script",
    "C54_constant_default",
    "C54_choice_condition",
    "C54_range_condition",
    "C54_oracle_add_column_refuted",
    "C54_oracle_drop_constraints_refuted",
    "C54_mssql_rename_column_refuted"
   ],
   "note": "SqlText.v is the reader (lexer with each engine's literal and identifier rules, statement grammar), TextSpec.v the agreement and the provisos, CatTextSpec.v the provisos on catalogs: defaults and conditions that lex, balance and stay within their clause (proved of Python constants and of the conditions the converter writes), no backslash in labels on MySQL/Snowflake/Delta and no apostrophe on Delta (C49), quoted names, no apostrophe in an SQL Server schema name (C50), enumeration tables with rows. A type is compared by its SQL name. Oracle: ADD COLUMN and several DROP CONSTRAINT in one statement, and SQL Server: RENAME COLUMN are written though these engines lack them (three _refuted theorems)."
  },
  {
   "property": "C55",
   "status": "partial",
   "theorems": [
    "C55_values_kept",
    "C55_values_lost_refuted",
    "C55_decimal_precision",
    "C55_time_precision"
   ],
   "note": "Storage.v says, from the manuals, what each engine keeps under each spelling of a type. C55_values_kept proves the claim for every engine and type of the table [lossless], C55_values_lost_refuted proves it false in all the other cases (Decimal on MySQL/SQL Server/Oracle has no places after the point; datetime and time lose microseconds on MySQL; timedelta is spelled 'interval', which only PostgreSQL has; Oracle has no boolean before 23 and its double precision has a smaller range), so the two settle the claim for unannotated types. Declared decimal and time precisions are kept on all four. Not covered: float32/float64 annotations, time zones (timestamp with time zone is not modelled as a value domain)."
  },
  {
   "property": "C56",
   "status": "partial",
   "theorems": [
    "C56_data_statement",
    "C56_insert",
    "C56_insert_or_ignore",
    "C56_upsert_on_key",
    "C56_upsert_by_merge",
    "C56_delete",
    "C56_mysql_driver",
    "C56_ignore_generated_key_refuted",
    "C56_insert_only_generated_refuted",
    "C56_mysql_percent_refuted"
   ],
   "note": "DmlText.v reads the text (parameter syntax of each driver, MERGE, ON CONFLICT, ON DUPLICATE KEY), DmlTextSpec.v the agreement. Proved for INSERT, insert-or-ignore, upsert and DELETE on all seven dialects, provided some column is not generated, MERGE has a listed identifying column that is not generated (insert-or-ignore) and, for the number of values MySQL's driver asks for, no name has a per cent sign. These provisos cannot be dropped: C56_ignore_generated_key_refuted (MERGE without ON), C56_insert_only_generated_refuted, C56_mysql_percent_refuted; so the full claim is false."
  },
  {
   "property": "C57",
   "status": "proved",
   "theorems": [
    "C57_mysql_table",
    "C57_mysql_discover",
    "C57_mysql_synchronize_twice",
    "C57_mysql_has_table",
    "C57_mysql_has_column",
    "C57_mssql_table",
    "C57_mssql_namespace",
    "C57_mssql_current_tables",
    "C57_mssql_discover",
    "C57_mssql_synchronize_twice",
    "C57_descriptions_play_no_role",
    "C57_mssql_has_table",
    "C57_mssql_has_column",
    "C57_mysql_text_default_refuted",
    "C57_mssql_default_refuted"
   ],
   "note": "AnsiExplorer, MySQLExplorer and MSSQLExplorer complete (IsExplore.v), over views specified in IsCatSpec.v. Provisos in IsSeenSpec.v: types of C30, defaults shown as written, one-line comments (MySQL; on SQL Server descriptions are arbitrary and proved to play no role, HushProofs.v), no CHECK constraints, qualified targets of foreign keys (SQL Server), MySQL's foreign-key rows in column order. What is not read back is proved as _refuted: text defaults (MySQL, shown without quotes), parenthesised defaults (SQL Server), foreign-key column order without ORDER BY (MySQL), names with a backslash (MySQL), tables without schema (SQL Server; C57_mssql_current_tables proves which tables are read), foreign keys to a key's columns in another order (SQL Server)."
  },
  {
   "property": "C58",
   "status": "proved",
   "theorems": [
    "C58_table",
    "C58_discover",
    "C58_synchronize_twice",
    "C58_missing_table_refuted",
    "C58_no_tablespace_refuted"
   ],
   "note": "OracleExplorer complete (OrExplore.v; has_table, has_column and get_table_names raise NotImplementedError), over views specified in OrCatSpec.v. Provisos: types of C30, defaults shown as written, no CHECK constraints, foreign keys of one column, no other user with a table of that name or in these namespaces, names without a dollar sign. What is not read back is proved as _refuted: foreign keys of several columns (all pairs), same-named tables of other users (mixed together), other users' tables (taken for the catalog's, and dropped), tables without tablespace (unseen), missing tables (read as empty)."
  },
  {
   "property": "C59",
   "status": "proved",
   "theorems": [
    "C59_well_formed",
    "C59_classes_to_database",
    "C59_drop_restores",
    "C59_extensible_enumeration_refuted",
    "C59_unique_collection_refuted",
    "C59_array_of_other_module_refuted"
   ],
   "note": "C59_well_formed, C59_classes_to_database, C59_drop_restores: for all classes meeting the provisos of CloseSpec (ordinary, ordinary_types) and CreateSpec (creatable); strong_typing's topological sort of structures is a hypothesis (sorts_structures). The provisos are needed: C59_extensible_enumeration_refuted, C59_unique_collection_refuted, C59_array_of_other_module_refuted are classes that the converter accepts but whose script fails on the server."
  },
  {
   "property": "C60",
   "status": "proved",
   "theorems": [
    "C60_postgresql",
    "C60_mssql",
    "C60_mysql",
    "C60_oracle",
    "C60_exactly_the_schema",
    "C60_exactly_the_prefix",
    "C60_create_then_drop",
    "C60_create_then_drop_flat",
    "C60_text",
    "C60_commands_written",
    "C60_table_if_exists_text",
    "C60_oracle_table_if_exists",
    "C60_oracle_table_if_exists_refuted",
    "C60_mysql_referred_refuted",
    "C60_mssql_referred_refuted",
    "C60_postgresql_column_lost_refuted",
    "C60_oracle_other_user_refuted",
    "C60_mysql_backslash_refuted"
   ],
   "note": "C60_postgresql, C60_mssql, C60_mysql, C60_oracle, C60_create_then_drop(_flat), C60_text. The proviso 'nothing outside refers to the schema' is needed: C60_mysql_referred_refuted, C60_mssql_referred_refuted (the commands fail), C60_postgresql_column_lost_refuted (CASCADE drops a column of another schema). On MySQL the namespace must have no backslash (C60_mysql_backslash_refuted: another namespace is dropped). On Oracle tables of other users with the prefix make it fail (C60_oracle_other_user_refuted), and drop_table_if_exists breaks on an apostrophe (C60_oracle_table_if_exists_refuted)."
  },
  {
   "property": "C61",
   "status": "proved",
   "theorems": [
    "C61_classes_to_script",
    "C61_drop_script",
    "C61_dialects"
   ],
   "note": "C61_classes_to_script, C61_drop_script (composition of the converter, the statement generator, the renderer, the reader of SqlText and the database of DbSpec), for classes meeting the provisos of C59 and WriteSpec (writable: literals that the dialect can quote, defaults that are expressions, structures with members, structures not written inline); C61_dialects: the type substitutions of all generators meet theirs."
  },
  {
   "property": "C62",
   "status": "proved",
   "theorems": [
    "C62_changed_classes_script",
    "C62_changed_classes_effect_partial",
    "C62_added_classes",
    "C62_added_only",
    "C62_added_script",
    "C62_added_runs",
    "C62_added_runs_prefixed",
    "C62_added_runs_modules",
    "C62_added_reference_refuted",
    "C62_added_module_refuted",
    "C62_removed_classes_refuted"
   ],
   "note": "C62_added_classes: refs1 is a subset of refs2 in one environment of classes, both meeting the provisos of C59; prefixed_alike: with prefixed names (MySQL, Oracle) either all modules have a schema or none has. The converter's result for some of the classes is shown to be part of the result for all. C62_added_only: no statement drops, renames or changes anything; C62_added_script: generated whenever all classes could be created at once, and read as meant on every engine; C62_added_runs: the schema is consistent after every statement, under local_news (met by prefixed names: C62_added_runs_prefixed, and if existing namespaces stay as they are: C62_added_runs_modules). What local_news excludes are bugs (C62_added_reference_refuted, C62_added_module_refuted), as is removing classes that refer to each other (C62_removed_classes_refuted). C62_changed_classes_script: the script between any two sets of classes is read as meant; its effect, for compatible catalogs, is C62_changed_classes_effect_partial (what C13 proves; see there)."
  },
  {
   "property": "C63",
   "status": "partial",
   "theorems": [
    "C63_rows_arrive_partial",
    "C63_read_one_way",
    "C63_batches",
    "C63_null_refuted",
    "C63_bytes_refuted",
    "C63_text_refuted"
   ],
   "note": "C63_rows_arrive_partial: records of text without line feeds, vertical bars and the text \\N alone, integers, truth values, dates, times of day and points of time without time zone; C63_read_one_way; C63_batches (all records). Missing: float and decimal values (text of the Python runtime), time zones. The full claim is false: C63_null_refuted (None arrives as the text None), C63_bytes_refuted (UUIDs and IP addresses are written as Python literals), C63_text_refuted (bars, line feeds, \\N)."
  },
  {
   "property": "C64",
   "status": "partial",
   "theorems": [
    "C64_upsert",
    "C64_named_columns",
    "C64_delete",
    "C64_insert",
    "C64_insert_count",
    "C64_integers",
    "C64_texts",
    "C64_bytes",
    "C64_fixed_bytes",
    "C64_variable_bytes",
    "C64_kinds",
    "C64_decimals",
    "C64_insert_generated_refuted",
    "C64_mssql_fraction_refuted",
    "C64_mssql_time_fraction_refuted",
    "C64_mssql_decimal_refuted",
    "C64_oracle_fixed_refuted"
   ],
   "note": "Alignment: C64_upsert, C64_delete, C64_insert (no generated column among the fields; C64_insert_count: necessary). What is carried: C64_integers, C64_texts, C64_bytes, C64_fixed_bytes, C64_decimals, C64_variable_bytes, C64_kinds. The columns are those that the caller names: C64_named_columns. The full claim is false: C64_insert_generated_refuted (a generated column among the fields shifts all types), C64_mssql_fraction_refuted and C64_mssql_time_fraction_refuted (fractions of seconds), C64_mssql_decimal_refuted (15 digits for a column of 18), C64_oracle_fixed_refuted."
  },
  {
   "property": "C65",
   "status": "partial",
   "theorems": [
    "C65_insert",
    "C65_upsert",
    "C65_delete",
    "C65_uuid_key_refuted",
    "C65_optional_enum_refuted",
    "C65_relation_enum_refuted",
    "C65_collection_refuted",
    "C65_other_order_refuted"
   ],
   "note": "C65_insert, C65_upsert, C65_delete: all tables the converter makes, all dialects, all objects, for fields of direct types without collections in tables of their own. The full claim is false: C65_uuid_key_refuted (annotated or optional UUIDs and keys to delete are handed as objects where columns are binary), C65_optional_enum_refuted, C65_relation_enum_refuted (labels into integer columns), C65_collection_refuted (KeyError), C65_other_order_refuted (columns of a discovered table in another order)."
  },
  {
   "property": "C66",
   "status": "partial",
   "theorems": [
    "C66_entity_fields",
    "C66_entity_made",
    "C66_unknown_key_refused",
    "C66_entity_table",
    "C66_flat_fields",
    "C66_flat_table",
    "C66_flat_docs",
    "C66_flat_made",
    "C66_factory_refuted",
    "C66_factory_order_refuted",
    "C66_flat_order_refuted",
    "C66_flat_optional_refuted",
    "C66_flat_collision_refuted"
   ],
   "note": "C66_entity_table, C66_entity_fields, C66_entity_made, C66_unknown_key_refused; C66_flat_fields, C66_flat_table, C66_flat_docs, C66_flat_made: all classes (unions not hidden behind annotations inside unions, EntitySpec.open_unions). The full claim is false: C66_factory_refuted and C66_factory_order_refuted (default factories are lost), C66_flat_optional_refuted (an optional structure gets required columns), C66_flat_order_refuted and C66_flat_collision_refuted (no class is made)."
  },
  {
   "property": "C67",
   "status": "partial",
   "theorems": [
    "C67_constants",
    "C67_enumeration",
    "C67_dataclasses",
    "C67_module",
    "C67_other_classes",
    "C67_enum_default_refuted",
    "C67_field_refuted",
    "C67_primary_key_refuted",
    "C67_empty_refuted",
    "C67_triple_refuted",
    "C67_backslash_refuted"
   ],
   "note": "C67_constants, C67_enumeration, C67_dataclasses, C67_module, C67_other_classes: identifiers as names, values that are constants, descriptions of data-classes (one line: any text; several lines: as strong_typing and textwrap give them, without backslashes and triple quotation marks), types whose text closes its brackets; the text of types comes from strong_typing and is given. Missing: how strong_typing and textwrap make the lines of a description. The full claim is false: C67_enum_default_refuted (defaults that are members of enumerations are written as <Color.red: ...>), C67_field_refuted (factories and metadata: a call of a name field that is not imported), C67_primary_key_refuted (PrimaryKey is not imported), C67_empty_refuted (a class without statements), C67_triple_refuted, C67_backslash_refuted (triple quotation marks and backslashes in a description of several lines)."
  },
  {
   "property": "C68",
   "status": "partial",
   "theorems": [
    "C68_mssql_partial",
    "C68_mssql_settings",
    "C68_oracle_partial",
    "C68_mssql_semicolon_refuted",
    "C68_mssql_brace_refuted",
    "C68_mssql_no_host_refuted",
    "C68_oracle_ipv6_refuted"
   ],
   "note": "C68_mssql_partial, C68_mssql_settings (values without semicolons and spaces at their ends that do not begin with a brace, a host without comma whenever there is a port), C68_oracle_partial (hosts without colons). Missing: other values. The full claim is false: C68_mssql_semicolon_refuted (a password with a semicolon sets other keywords), C68_mssql_brace_refuted (a password that begins with a brace), C68_mssql_no_host_refuted (a port without a host: the host is called None), C68_oracle_ipv6_refuted (IPv6 addresses). PostgreSQL, MySQL, Trino and Redshift pass keyword arguments: nothing to read."
  },
  {
   "property": "C69",
   "status": "partial",
   "theorems": [
    "C69_one_after_the_other",
    "C69_idle_in_own_code",
    "C69_never_stuck",
    "C69_call_begins",
    "C69_two_tasks_refuted",
    "C69_responsive_refuted"
   ],
   "note": "C69_one_after_the_other, C69_idle_in_own_code, C69_never_stuck, C69_call_begins for a single task, all schedules and cancellations. Calls of two tasks on one connection may overlap: C69_two_tasks_refuted. Other tasks do not go on while the call of a cancelled task is under way, because leaving the pool blocks the event loop: C69_responsive_refuted. Missing: interpreter shutdown."
  }
 ]
}