{
 "C02": {
  "note": "Refuted for GlobalId, whose quoted_id is unquoted."
 },
 "C06": {
  "note": "Proved under the proviso; the collision without it is the refuted theorem."
 },
 "C07": {
  "note": "Strings, Booleans, integers, None-free nested tuples; floats, decimals and datetimes (text produced by the Python runtime) not modelled."
 },
 "C49": {
  "status": "partial",
  "note": "Holds for texts without backslash; refuted in general (finding)."
 },
 "C50": {
  "status": "partial",
  "note": "Holds for names without apostrophes; refuted in general (finding)."
 },
 "C11": {
  "status": "proved",
  "note": "Strict execution (every intermediate state consistent), all dialects; catalog well-formed and closed under references in creation order. Rows: enumeration tables get exactly their values, all other tables are empty."
 },
 "C12": {
  "status": "proved",
  "note": "Strict execution, all dialects."
 },
 "C13": {
  "status": "partial",
  "note": "Outcome of every mutation script between compatible catalogs (all dialects; on Delta and Snowflake, whose statements are interpreted as the default engine does, compatible means also that no description changes and no changed default is respelled on creation: C13_snowflake_description_refuted, C13_delta_default_refuted, C13_snowflake_default_refuted); exact reachability. Missing: consistency of intermediate states, incompatible changes - each shown false by a refuted theorem (findings)."
 },
 "C14": {
  "status": "proved",
  "note": "No-op on equal catalogs for every dialect and option set; converse for compatible catalogs; primary-key-only change goes unnoticed (refuted)."
 },
 "C15": {
  "status": "proved",
  "note": "Drop statements characterised for all catalogs and options; effects for compatible catalogs. Two unprotected effects are refuted theorems (findings)."
 },
 "C16": {
  "status": "proved",
  "note": "Statement level and row level (DataSpec.v); exceptions stated in keeps_columns: columns named like a soft-deleted one, NULL/0 in a column that becomes AUTO_INCREMENT."
 },
 "C17": {
  "status": "proved",
  "note": ""
 },
 "C19": {
  "status": "proved",
  "note": ""
 },
 "C20": {
  "status": "partial",
  "note": "All dialects (Delta and Snowflake: changed defaults must be created as they are altered, default_as_is); refuted for identity-to-nullable (PostgreSQL) and Snowflake timestamp defaults."
 },
 "C23": {
  "status": "proved",
  "note": "Columns, alignment and refusal proved; placeholder count of MySQL text proved for names without %. Findings: % in column names, identity columns with insert_rows (refuted theorems)."
 },
 "C24": {
  "status": "proved",
  "note": "All MERGE dialects, all tables/orders/contents/batches; idempotence for records identified by a column that insertion writes, the exceptions are refuted theorems (findings)."
 },
 "C25": {
  "status": "partial",
  "note": "Full column lists proved (MySQL: tables whose only key is the primary key); partial column lists and other MySQL keys are refuted (findings)."
 },
 "C26": {
  "status": "proved",
  "note": "Any positive batch size; synchronous and asynchronous loops have the same body."
 },
 "C46": {
  "status": "proved",
  "note": "ASCII white space."
 },
 "C47": {
  "status": "proved",
  "note": ""
 },
 "C48": {
  "status": "proved",
  "note": "Key transformers (enumerations) not modelled here."
 },
 "C09": {
  "status": "proved",
  "note": "All keyed catalogs; equality of definitions is specified independently (MergeSpec). The refuted theorem is a finding: labels of enumeration tables are not compared and are lost."
 },
 "C21": {
  "status": "proved",
  "note": "Histories of create/drop calls (some raising) whose scripts are executed completely, options at their defaults, steps for which C13 is proved. A failing execution leaves the believed state ahead of the database (refuted, finding)."
 },
 "C22": {
  "status": "proved",
  "note": "Modulo the explorer's faithfulness for the target (hypothesis `sees`, stated on the database); failure leaves the state at what discovery found."
 },
 "C41": {
  "status": "partial",
  "note": "Proved for MySQL (driver that takes no context as no TLS) and, for require/verify_ca/verify_full, for every driver that uses the given context. Refuted for PostgreSQL disable/allow (asyncpg's default mode) and for SQL Server and Oracle, which ignore the mode (findings)."
 },
 "C42": {
  "status": "proved",
  "note": "UTF-8 bytes; user, password, host, port, plain database names and mode. Database names that need encoding are not decoded (refuted, finding)."
 },
 "C43": {
  "status": "proved",
  "note": "Every call history, plus discovery of bundled dialects."
 },
 "C44": {
  "status": "proved",
  "note": "Under the stated proviso, also for every script of the Oracle generator; label with a line ending in a semicolon is torn apart (refuted, finding)."
 },
 "C27": {
  "status": "proved",
  "note": "All dialects, all catalogs with sound tables; the value transformer of the dialect and the iteration order of sets are parameters. End to end with the INSERT statement (C27_inserted_rows) and with COPY on PostgreSQL and Redshift (C27_copied_rows: with or without names, generated columns too). Findings as refuted theorems: omission by type only, identity columns without names (INSERT), rows longer than the types."
 },
 "C28": {
  "status": "proved",
  "note": "All dialects; the database is assumed to generate unused integer keys (fresh_keys) and to compare labels exactly. Histories of calls; success theorem. Findings: NULL lists, lookup tables whose key is not generated."
 },
 "C32": {
  "status": "proved",
  "note": "Both factories for every interleaving; refusal exactly when rows of one name disagree on the table; _refuted: the Oracle catalog query joins by constraint name only (composite keys), the ANSI query pairs by position of the referenced constraint."
 },
 "C39": {
  "status": "proved",
  "note": "For every codec that obeys the stated laws of the external tsv package (an instance with escapes is proved sound), every mapping order and every history of write calls. _refuted: empty line ends the file; header names are not escaped."
 },
 "C40": {
  "status": "proved",
  "note": "All drivers (mapping, object, positional rows), all result sets with distinct column names; acceptance characterised exactly. _refuted: Oracle fills fields by position; drivers disagree on defaults; only the first raw record is checked."
 },
 "C33": {
  "status": "proved",
  "note": "MySQL and Oracle, discovery and drop_schema, through the LIKE semantics of C05. _refuted: namespace \"a\" takes, drops and (on synchronize) removes the tables of \"a__b\"; Oracle misses names with \"$\"."
 },
 "C29": {
  "status": "proved",
  "note": "All lists of types of one engine. Unsigned integer types must be narrower than the result (or all types equal). _refuted: unsigned type of the result's width loses values; lists mixing engine classes depend on order; two Oracle integer types raise TypeError."
 },
 "C31": {
  "status": "proved",
  "note": "All limits and widths for MySQL, SQL Server, Oracle and PostgreSQL against a table of what the servers store (from their manuals). _refuted: multi-byte texts, MySQL's unlimited text, SQL Server limits 8001.. and tinyint, unsigned integers, huge Oracle limits."
 },
 "C30": {
  "status": "proved",
  "note": "MySQL, SQL Server, Oracle, PostgreSQL, for the stated classes of types with all parameter values, against a table of what the servers report (from their manuals). _refuted: integer ranges, PostgreSQL intervals/time precision/decimal(p)/float/array limits/user types named like built-ins, MySQL real/decimal/apostrophes in enums, SQL Server float/time/decimal, Oracle decimal/timestamp(p)/float."
 },
 "C34": {
  "status": "proved",
  "note": "All classes, all dialects' options. That a class with several key fields is accepted (only the first is the key) is shown by the refuted theorem (finding)."
 },
 "C36": {
  "status": "partial",
  "note": "Proved for int8..int64 and uint8 on PostgreSQL, MySQL, SQL Server, Oracle while the typing cache holds the type; refuted for uint16/32/64 (maximum does not fit) and when the cache lost the type (findings)."
 },
 "C18": {
  "status": "partial",
  "note": "Proved at catalog level for PostgreSQL (enumeration type replaced by a lookup table of the same name; existing unchanged lookup table with all labels) and MySQL (inline enumeration, text). Missing: lookup table in another namespace, or an existing lookup table whose own definition changes. Refuted: NOT NULL columns of populated tables on PostgreSQL, lookup table with another name than the type (labels lost), MySQL text columns with NULLs."
 },
 "C35": {
  "status": "proved",
  "note": "All class sets, all options, all dialects, qualified and prefixed names; the provisos are the records ordinary, complete and ordinary_types of CloseSpec.v. That each proviso is needed is shown by refuted theorems (findings): shared schema, class named like a join table, one-member enumeration, module without entity, array of structures on Delta, enumeration types with prefixed names, value attribute called id."
 },
 "C37": {
  "status": "proved",
  "note": "All class sets, options and dialects, qualified and prefixed names, including primary key names; provisos are the record separable of NamesSpec.v (class names without underscore or dot, modules in different schemas, ...). No constraint is lost through its name (unique, foreign, discriminated). Refuted (findings): underscore in a class name, same-named enumerations of two modules on Oracle, set field next to a unique field named like the join."
 },
 "C51": {
  "status": "proved",
  "note": "All classes, all ways to declare the field, all lengths/ranges/literals; server capacities from Capacity.v; annotations the user asked to skip excluded."
 },
 "C52": {
  "status": "proved",
  "note": "All class sets and options; provisos are the records ordinary, complete and ordinary_types of CloseSpec.v; lookup tables for enumerations of strings or integers."
 },
 "C38": {
  "status": "partial",
  "note": "Proved: generated class names are distinct and references name existing classes; one field per column with its name, default and optionality; columns with the listed types of each engine, no default, no reserved name and no reference come back with name, type, nullability and order. Refuted as theorems (findings): the primary key is never marked, so no generated class is accepted as a table; nullable references come back required; decimals with precision, time zones, fixed-length texts, FLOAT without precision do not come back; defaults are quoted again; reserved names get an underscore."
 },
 "C45": {
  "status": "partial",
  "note": "Whatever the random stream and clock: as many objects as asked for, each value of the declared type and within declared bounds (sane annotations; dates between the fixed start and the clock), integer keys are exactly 0..n-1 (UUID keys distinct unless the source repeats), and generation never fails for supported satisfiable declarations. Refuted: references are not keys of the referenced objects, Unique values may repeat, keys ignore the declared integer range, fixed lengths are ignored and sets may repeat elements."
 },
 "C53": {
  "status": "proved",
  "note": "PostgreSQL explorer complete (get_struct, get_table, get_namespace, has_table, has_column, discover), over system catalogs specified in PgCatSpec.v. Provisos in ExploreSpec.v (tab_seen, struct_seen, ns_seen): reported types of C30, defaults reported without casts other than the timestamp one, no CHECK constraints, no comments of composite-type members, constraint rows delivered in column order. What is not read back is proved as _refuted theorems (cast defaults, CHECK constraints, empty schemas, views, key order without ORDER BY, comments looked up without catalog, array members, current schema)."
 },
 "C54": {
  "status": "proved",
  "note": "SqlText.v is the reader (lexer with each engine's literal and identifier rules, statement grammar), TextSpec.v the agreement and the provisos, CatTextSpec.v the provisos on catalogs: defaults and conditions that lex, balance and stay within their clause (proved of Python constants and of the conditions the converter writes), no backslash in labels on MySQL/Snowflake/Delta and no apostrophe on Delta (C49), quoted names, no apostrophe in an SQL Server schema name (C50), enumeration tables with rows. A type is compared by its SQL name. Oracle: ADD COLUMN and several DROP CONSTRAINT in one statement, and SQL Server: RENAME COLUMN are written though these engines lack them (three _refuted theorems)."
 },
 "C55": {
  "status": "partial",
  "note": "Storage.v says, from the manuals, what each engine keeps under each spelling of a type. C55_values_kept proves the claim for every engine and type of the table [lossless], C55_values_lost_refuted proves it false in all the other cases (Decimal on MySQL/SQL Server/Oracle has no places after the point; datetime and time lose microseconds on MySQL; timedelta is spelled 'interval', which only PostgreSQL has; Oracle has no boolean before 23 and its double precision has a smaller range), so the two settle the claim for unannotated types. Declared decimal and time precisions are kept on all four. Not covered: float32/float64 annotations, time zones (timestamp with time zone is not modelled as a value domain)."
 },
 "C56": {
  "status": "partial",
  "note": "DmlText.v reads the text (parameter syntax of each driver, MERGE, ON CONFLICT, ON DUPLICATE KEY), DmlTextSpec.v the agreement. Proved for INSERT, insert-or-ignore, upsert and DELETE on all seven dialects, provided some column is not generated, MERGE has a listed identifying column that is not generated (insert-or-ignore) and, for the number of values MySQL's driver asks for, no name has a per cent sign. These provisos cannot be dropped: C56_ignore_generated_key_refuted (MERGE without ON), C56_insert_only_generated_refuted, C56_mysql_percent_refuted; so the full claim is false."
 },
 "C57": {
  "status": "proved",
  "note": "AnsiExplorer, MySQLExplorer and MSSQLExplorer complete (IsExplore.v), over views specified in IsCatSpec.v. Provisos in IsSeenSpec.v: types of C30, defaults shown as written, one-line comments (MySQL; on SQL Server descriptions are arbitrary and proved to play no role, HushProofs.v), no CHECK constraints, qualified targets of foreign keys (SQL Server), MySQL's foreign-key rows in column order. What is not read back is proved as _refuted: text defaults (MySQL, shown without quotes), parenthesised defaults (SQL Server), foreign-key column order without ORDER BY (MySQL), names with a backslash (MySQL), tables without schema (SQL Server; C57_mssql_current_tables proves which tables are read), foreign keys to a key's columns in another order (SQL Server)."
 },
 "C58": {
  "status": "proved",
  "note": "OracleExplorer complete (OrExplore.v; has_table, has_column and get_table_names raise NotImplementedError), over views specified in OrCatSpec.v. Provisos: types of C30, defaults shown as written, no CHECK constraints, foreign keys of one column, no other user with a table of that name or in these namespaces, names without a dollar sign. What is not read back is proved as _refuted: foreign keys of several columns (all pairs), same-named tables of other users (mixed together), other users' tables (taken for the catalog's, and dropped), tables without tablespace (unseen), missing tables (read as empty)."
 },
 "C59": {
  "status": "proved",
  "note": "C59_well_formed, C59_classes_to_database, C59_drop_restores: for all classes meeting the provisos of CloseSpec (ordinary, ordinary_types) and CreateSpec (creatable); strong_typing's topological sort of structures is a hypothesis (sorts_structures). The provisos are needed: C59_extensible_enumeration_refuted, C59_unique_collection_refuted, C59_array_of_other_module_refuted are classes that the converter accepts but whose script fails on the server."
 },
 "C60": {
  "status": "proved",
  "note": "C60_postgresql, C60_mssql, C60_mysql, C60_oracle, C60_create_then_drop(_flat), C60_text. The proviso 'nothing outside refers to the schema' is needed: C60_mysql_referred_refuted, C60_mssql_referred_refuted (the commands fail), C60_postgresql_column_lost_refuted (CASCADE drops a column of another schema). On MySQL the namespace must have no backslash (C60_mysql_backslash_refuted: another namespace is dropped). On Oracle tables of other users with the prefix make it fail (C60_oracle_other_user_refuted), and drop_table_if_exists breaks on an apostrophe (C60_oracle_table_if_exists_refuted)."
 },
 "C61": {
  "status": "proved",
  "note": "C61_classes_to_script, C61_drop_script (composition of the converter, the statement generator, the renderer, the reader of SqlText and the database of DbSpec), for classes meeting the provisos of C59 and WriteSpec (writable: literals that the dialect can quote, defaults that are expressions, structures with members, structures not written inline); C61_dialects: the type substitutions of all generators meet theirs."
 },
 "C62": {
  "status": "proved",
  "note": "C62_added_classes: refs1 is a subset of refs2 in one environment of classes, both meeting the provisos of C59; prefixed_alike: with prefixed names (MySQL, Oracle) either all modules have a schema or none has. The converter's result for some of the classes is shown to be part of the result for all. C62_added_only: no statement drops, renames or changes anything; C62_added_script: generated whenever all classes could be created at once, and read as meant on every engine; C62_added_runs: the schema is consistent after every statement, under local_news (met by prefixed names: C62_added_runs_prefixed, and if existing namespaces stay as they are: C62_added_runs_modules). What local_news excludes are bugs (C62_added_reference_refuted, C62_added_module_refuted), as is removing classes that refer to each other (C62_removed_classes_refuted). C62_changed_classes_script: the script between any two sets of classes is read as meant; its effect, for compatible catalogs, is C62_changed_classes_effect_partial (what C13 proves; see there)."
 },
 "C63": {
  "status": "partial",
  "note": "C63_rows_arrive_partial: records of text without line feeds, vertical bars and the text \\N alone, integers, truth values, dates, times of day and points of time without time zone; C63_read_one_way; C63_batches (all records). Missing: float and decimal values (text of the Python runtime), time zones. The full claim is false: C63_null_refuted (None arrives as the text None), C63_bytes_refuted (UUIDs and IP addresses are written as Python literals), C63_text_refuted (bars, line feeds, \\N)."
 },
 "C64": {
  "status": "partial",
  "note": "Alignment: C64_upsert, C64_delete, C64_insert (no generated column among the fields; C64_insert_count: necessary). What is carried: C64_integers, C64_texts, C64_bytes, C64_fixed_bytes, C64_decimals, C64_variable_bytes, C64_kinds. The columns are those that the caller names: C64_named_columns. The full claim is false: C64_insert_generated_refuted (a generated column among the fields shifts all types), C64_mssql_fraction_refuted and C64_mssql_time_fraction_refuted (fractions of seconds), C64_mssql_decimal_refuted (15 digits for a column of 18), C64_oracle_fixed_refuted."
 },
 "C65": {
  "status": "partial",
  "note": "C65_insert, C65_upsert, C65_delete: all tables the converter makes, all dialects, all objects, for fields of direct types without collections in tables of their own. The full claim is false: C65_uuid_key_refuted (annotated or optional UUIDs and keys to delete are handed as objects where columns are binary), C65_optional_enum_refuted, C65_relation_enum_refuted (labels into integer columns), C65_collection_refuted (KeyError), C65_other_order_refuted (columns of a discovered table in another order)."
 },
 "C66": {
  "status": "partial",
  "note": "C66_entity_table, C66_entity_fields, C66_entity_made, C66_unknown_key_refused; C66_flat_fields, C66_flat_table, C66_flat_docs, C66_flat_made: all classes (unions not hidden behind annotations inside unions, EntitySpec.open_unions). The full claim is false: C66_factory_refuted and C66_factory_order_refuted (default factories are lost), C66_flat_optional_refuted (an optional structure gets required columns), C66_flat_order_refuted and C66_flat_collision_refuted (no class is made)."
 },
 "C67": {
  "status": "partial",
  "note": "C67_constants, C67_enumeration, C67_dataclasses, C67_module, C67_other_classes: identifiers as names, values that are constants, descriptions of data-classes (one line: any text; several lines: as strong_typing and textwrap give them, without backslashes and triple quotation marks), types whose text closes its brackets; the text of types comes from strong_typing and is given. Missing: how strong_typing and textwrap make the lines of a description. The full claim is false: C67_enum_default_refuted (defaults that are members of enumerations are written as <Color.red: ...>), C67_field_refuted (factories and metadata: a call of a name field that is not imported), C67_primary_key_refuted (PrimaryKey is not imported), C67_empty_refuted (a class without statements), C67_triple_refuted, C67_backslash_refuted (triple quotation marks and backslashes in a description of several lines)."
 },
 "C68": {
  "status": "partial",
  "note": "C68_mssql_partial, C68_mssql_settings (values without semicolons and spaces at their ends that do not begin with a brace, a host without comma whenever there is a port), C68_oracle_partial (hosts without colons). Missing: other values. The full claim is false: C68_mssql_semicolon_refuted (a password with a semicolon sets other keywords), C68_mssql_brace_refuted (a password that begins with a brace), C68_mssql_no_host_refuted (a port without a host: the host is called None), C68_oracle_ipv6_refuted (IPv6 addresses). PostgreSQL, MySQL, Trino and Redshift pass keyword arguments: nothing to read."
 },
 "C69": {
  "status": "partial",
  "note": "C69_one_after_the_other, C69_idle_in_own_code, C69_never_stuck, C69_call_begins for a single task, all schedules and cancellations. Calls of two tasks on one connection may overlap: C69_two_tasks_refuted. Other tasks do not go on while the call of a cancelled task is under way, because leaving the pool blocks the event loop: C69_responsive_refuted. Missing: interpreter shutdown."
 }
}