{"id": "C01", "title": "String constants survive SQL lexing", "statement": "For every text, the SQL literal produced by quote() is read by a standard SQL scanner (opening apostrophe, doubled apostrophe stands for one, first undoubled apostrophe closes) as exactly that text, and the scanner stops exactly at the end of the literal whatever statement text follows (as long as it does not start with an apostrophe). Hence different texts give different literals, no text can terminate its literal early, and an enumeration value list rendered from such literals is read back as the same list of values.", "quantifier": "all texts, all continuations of the statement, all lists of enumeration values", "why_tests_cant": "The text ranges over all strings, including every placement and number of apostrophes; a unit test samples a handful.", "anchors": ["pysqlsync/model/data_types.py:quote", "pysqlsync/model/data_types.py:constant", "pysqlsync/model/data_types.py:SqlEnumType.__str__", "pysqlsync/formation/object_types.py:EnumType.create_stmt"]}
{"id": "C02", "title": "Quoted identifiers are unambiguous", "statement": "For every local or schema-qualified identifier, the quoted form embedded in SQL is scanned back to exactly the same (optional schema, name) pair and nothing of the following statement text is consumed; two identifiers that differ have different quoted forms. The same holds for MySQL's back-tick quoting of query parameters.", "quantifier": "all schema and object names (any characters, including quotes and dots) and all continuations that do not begin with the quote character (or a dot after an unqualified name)", "why_tests_cant": "Names are arbitrary strings; injection and aliasing depend on characters a test author did not think of.", "anchors": ["pysqlsync/model/id_types.py:quote_id", "pysqlsync/model/id_types.py:LocalId.quoted_id", "pysqlsync/model/id_types.py:QualifiedId.quoted_id", "pysqlsync/dialect/mysql/connection.py:quoted_id"]}
{"id": "C03", "title": "PostgreSQL description literals survive lexing", "statement": "For every description text, the literal emitted in COMMENT ON ... IS for PostgreSQL is read back by a PostgreSQL scanner (plain literals with doubled apostrophes, E'' literals with backslash escapes) as exactly the description, for any following text that does not start with an apostrophe.", "quantifier": "all description texts (all mixes of apostrophes, backslashes and control characters) and all continuations", "why_tests_cant": "The two rendering branches interact with every character combination.", "anchors": ["pysqlsync/dialect/postgresql/object_types.py:sql_quoted_string"]}
{"id": "C04", "title": "Delta and Snowflake description literals survive lexing", "statement": "For every description text, the COMMENT literal emitted for Delta Lake and for Snowflake is read back by that engine's scanner (backslash escapes; Snowflake also doubled apostrophes) as exactly the description, for any following text that does not start with an apostrophe.", "quantifier": "all description texts and all continuations", "why_tests_cant": "Same as C03: unbounded strings and two branches.", "anchors": ["pysqlsync/dialect/delta/object_types.py:sql_quoted_string", "pysqlsync/dialect/snowflake/object_types.py:sql_quoted_string"]}
{"id": "C05", "title": "LIKE prefix search is exact", "statement": "For every namespace name, the LIKE pattern that flat-namespace discovery builds with escape_like selects exactly the table names that start with the name followed by two underscores: no wildcard character in the name is interpreted, and the pattern survives embedding in an SQL string literal.", "quantifier": "all namespace names and all candidate table names", "why_tests_cant": "LIKE wildcards and the escape character may occur anywhere in the name.", "anchors": ["pysqlsync/model/data_types.py:escape_like", "pysqlsync/dialect/mysql/discovery.py", "pysqlsync/dialect/oracle/discovery.py"]}
{"id": "C06", "title": "Flat (prefixed) identifiers: when two objects can collide", "statement": "With prefixed identifiers (MySQL, Oracle), two objects of different (namespace, name) receive different database names, and splitting a database name recovers (namespace, name), provided namespaces contain no double underscore and do not end in an underscore; without the proviso two distinct objects do share one database name.", "quantifier": "all pairs of namespace and object names", "why_tests_cant": "A collision needs a specific placement of underscores; tests use ordinary names.", "anchors": ["pysqlsync/model/id_types.py:PrefixedId", "pysqlsync/formation/discovery.py", "pysqlsync/dialect/mysql/discovery.py", "pysqlsync/dialect/oracle/discovery.py"]}
{"id": "C07", "title": "Composite constants are unambiguous", "statement": "constant() renders strings, Booleans, integers and arbitrarily nested tuples so that a reader of SQL row-value syntax recovers exactly the same value; any value containing an unsupported component is rejected with an error rather than rendered.", "quantifier": "all nested tuples of strings, Booleans and integers, of any depth and width", "why_tests_cant": "Nesting depth, width and string content are unbounded.", "anchors": ["pysqlsync/model/data_types.py:constant", "pysqlsync/formation/object_types.py:EnumTable.create_stmt"]}
{"id": "C08", "title": "Named collections behave as insertion-ordered maps", "statement": "Whatever sequence of add, remove, sort and reorder operations is applied to an object collection, it behaves like a finite map from name to object with a duplicate-free key order: lookups return the last successful add, add of a present name and remove/reorder of an absent name fail and change nothing, length equals the number of distinct names, and difference/intersection split one collection exactly by membership in the other, in its own order.", "quantifier": "all operation histories and all pairs of collections", "why_tests_cant": "Histories are unbounded; invariants must hold after each.", "anchors": ["pysqlsync/formation/object_dict.py:ObjectDict"]}
{"id": "C09", "title": "Merging catalogs is a conflict-checked union", "statement": "Merging catalog B into catalog A succeeds exactly when every object present in both has equal definitions (all attributes; members, columns and constraints in any order; the seeded labels of an enumeration table are not compared); the result contains exactly the objects of A and B with their definitions, keeps A's order and appends B's new objects in B's order. Merging is idempotent, merging the empty catalog is the identity, and merge order does not change the set of objects.", "quantifier": "all pairs and triples of catalogs", "why_tests_cant": "Requires all overlaps between two catalogs of any size.", "anchors": ["pysqlsync/formation/object_types.py:Namespace.merge", "pysqlsync/formation/object_types.py:Catalog.merge"]}
{"id": "C10", "title": "Namespaces are emitted in dependency order", "statement": "Sorting a catalog returns a permutation of its namespaces in which each namespace comes after every other namespace its tables or types refer to; it succeeds exactly when cross-namespace references form no cycle (self references are fine), and otherwise fails instead of emitting a wrong order.", "quantifier": "all catalogs, i.e. all finite reference graphs between namespaces", "why_tests_cant": "The graph may have any size and shape.", "anchors": ["pysqlsync/formation/object_types.py:Catalog.sort", "pysqlsync/formation/object_types.py:Namespace.get_referenced_namespaces"]}
{"id": "C11", "title": "The CREATE script builds exactly the catalog", "statement": "Executing the CREATE script of a well-formed catalog followed by its constraint script on a database that has none of its names succeeds (each object is created before any object or constraint that refers to it) and leaves exactly the catalog's schemas, enumeration types, composite types, tables with their columns and primary keys, and constraints, without touching anything that was there before.", "quantifier": "all well-formed catalogs and all database states that have none of the catalog's names", "why_tests_cant": "Ordering bugs appear only for particular reference patterns.", "anchors": ["pysqlsync/formation/object_types.py:Catalog.create_stmt", "pysqlsync/formation/object_types.py:Namespace.create_objects_stmt", "pysqlsync/formation/object_types.py:Table.create_stmt", "pysqlsync/formation/object_types.py:Table.add_constraints_stmt"]}
{"id": "C12", "title": "DROP undoes CREATE", "statement": "Executing the constraint-drop and DROP script of a catalog on a database in which that catalog was created restores exactly the state before creation: everything in the catalog disappears, everything else stays.", "quantifier": "all well-formed catalogs and all database states", "why_tests_cant": "Depends on reversed ordering for all object sets.", "anchors": ["pysqlsync/formation/object_types.py:Catalog.drop_stmt", "pysqlsync/formation/object_types.py:Namespace.drop_objects_stmt", "pysqlsync/formation/object_types.py:Namespace.drop_constraints_stmt"]}
{"id": "C13", "title": "Schema mutation reaches the target", "statement": "Executing the statements that the mutator generates for (source, target) on a database in the source state succeeds and yields a database in the target state: same schemas, enumeration values, composite types, tables, column types, nullability, defaults and identity, and the same alterable constraints; objects outside the two catalogs are untouched.", "quantifier": "all pairs of source and target catalogs for which a mutation is offered (no error), all default options", "why_tests_cant": "The cross product of all add/drop/alter/rename combinations is unbounded.", "anchors": ["pysqlsync/formation/mutation.py:Mutator.mutate_catalog_stmt", "pysqlsync/formation/mutation.py:Mutator.mutate_namespace_stmt", "pysqlsync/formation/mutation.py:Mutator.mutate_table_stmt", "pysqlsync/formation/mutation.py:Mutator.mutate_column_stmt"]}
{"id": "C14", "title": "Mutating to an equal catalog is a no-op", "statement": "When source and target catalogs are equal (the same objects with equal definitions, in any order), the mutator generates no statement at all, for every dialect; conversely if it generates nothing then executing nothing is right: the two catalogs agree on all enumerations, types, tables, columns and alterable constraints.", "quantifier": "all catalogs and all reorderings of their members, all dialect mutators", "why_tests_cant": "Needs equality on every attribute of every object.", "anchors": ["pysqlsync/formation/mutation.py:Mutator", "pysqlsync/dialect/postgresql/mutation.py", "pysqlsync/dialect/mysql/mutation.py", "pysqlsync/dialect/mssql/mutation.py", "pysqlsync/dialect/oracle/mutation.py"]}
{"id": "C15", "title": "Drop protection is honoured", "statement": "With allow_drop_table (respectively allow_drop_enum, allow_drop_struct, allow_drop_namespace) off, no generated statement drops a table (enumeration type, composite type, schema) of a namespace present in both catalogs (for allow_drop_namespace: of any namespace), whatever the source and target are; objects that would have been dropped still exist unaltered after execution.", "quantifier": "all pairs of catalogs and all combinations of the four options", "why_tests_cant": "A destructive statement is exceptional and depends on the pair of catalogs.", "anchors": ["pysqlsync/formation/mutation.py:MutatorOptions", "pysqlsync/formation/mutation.py:Mutator.mutate_namespace_stmt", "pysqlsync/formation/mutation.py:Mutator.mutate_catalog_stmt"]}
{"id": "C16", "title": "Mutation leaves unrelated objects and data alone", "statement": "A mutation never drops, renames or re-creates a column whose name and type are the same in source and target, never touches a table whose definition is unchanged, and never names any object that is in neither catalog; stored values in retained columns are the same after the mutation.", "quantifier": "all pairs of tables/catalogs and all stored rows", "why_tests_cant": "Data preservation must hold for all rows and all column combinations.", "anchors": ["pysqlsync/formation/mutation.py:Mutator.mutate_table_stmt", "pysqlsync/formation/mutation.py:Mutator.is_column_migrated"]}
{"id": "C17", "title": "Enumeration mutation never loses values", "statement": "An enumeration mutation is refused exactly when some source value is absent from the target; otherwise the generated statements add exactly the target values missing in the source, once each in target order, and the resulting value set equals the target's.", "quantifier": "all pairs of value lists", "why_tests_cant": "Unbounded value lists with arbitrary overlaps.", "anchors": ["pysqlsync/formation/mutation.py:Mutator.mutate_enum_stmt"]}
{"id": "C18", "title": "Enumeration columns migrate to lookup tables without losing data", "statement": "When an enumeration-typed (PostgreSQL, MySQL) column becomes a foreign key into a lookup table, after the generated statements run every row's new value is the key of the lookup row whose label equals the row's old value, NULL stays NULL, all other columns are unchanged and no label is lost from the lookup table.", "quantifier": "all rows, all label sets, all previous contents of the lookup table", "why_tests_cant": "Must hold for all data; unit tests have no database.", "anchors": ["pysqlsync/formation/mutation.py:Mutator.migrate_enum_stmt", "pysqlsync/dialect/postgresql/mutation.py:PostgreSQLMutator.migrate_column_stmt", "pysqlsync/dialect/mysql/mutation.py:MySQLMutator.migrate_column_stmt"]}
{"id": "C19", "title": "Composite type mutation reaches the target members", "statement": "The statements generated for a pair of composite types turn the source member list into one with exactly the target's members and types, keep members common to both in place, and are empty only if the members already agree.", "quantifier": "all pairs of composite types", "why_tests_cant": "All overlaps of member lists.", "anchors": ["pysqlsync/formation/mutation.py:Mutator.mutate_struct_stmt"]}
{"id": "C20", "title": "Column alteration reaches the target column", "statement": "For each dialect, applying the generated column alteration to a column in the source state yields the target's data type, nullability, default and identity, and nothing is generated when they already agree; MSSQL refuses exactly the identity changes.", "quantifier": "all pairs of columns, per dialect", "why_tests_cant": "The product of four attributes and unbounded types/defaults.", "anchors": ["pysqlsync/formation/mutation.py:Mutator.mutate_column_stmt", "pysqlsync/dialect/mysql/mutation.py:MySQLMutator.mutate_column_stmt", "pysqlsync/dialect/mssql/mutation.py:MSSQLMutator", "pysqlsync/dialect/oracle/mutation.py:OracleMutator.mutate_column_stmt"]}
{"id": "C21", "title": "Generator state follows the database", "statement": "For any sequence of create, drop and mutate calls on a generator whose statements are all executed, the state the generator believes in equals the database's schema after each step; a call that raises leaves the believed state unchanged.", "quantifier": "all finite sequences of generator calls, with failures at any point", "why_tests_cant": "Call histories and failure points are unbounded.", "anchors": ["pysqlsync/base.py:BaseGenerator.create", "pysqlsync/base.py:BaseGenerator.drop", "pysqlsync/base.py:BaseGenerator.mutate", "pysqlsync/base.py:BaseContext"]}
{"id": "C22", "title": "Synchronization converges", "statement": "After a successful synchronize, discovering the database and mutating again towards the same entities yields no statement (for catalogs whose constraints discovery can see); if synchronize fails midway the believed state is not advanced.", "quantifier": "all target catalogs, all initial database states, all failure points", "why_tests_cant": "Requires all reachable database states.", "anchors": ["pysqlsync/base.py:BaseContext", "pysqlsync/base.py:Explorer"]}
{"id": "C23", "title": "INSERT statements are aligned with their records", "statement": "For every table and column order, the generated INSERT has exactly one placeholder per named column, names only columns of the table in the given order, leaves out identity columns, and is refused when a requested column does not exist.", "quantifier": "all tables and all column orders", "why_tests_cant": "All subsets and orders of columns.", "anchors": ["pysqlsync/base.py:BaseGenerator.get_table_insert_stmt", "pysqlsync/formation/object_types.py:Table.get_columns"]}
{"id": "C24", "title": "MERGE-based upsert semantics", "statement": "Running the generated MERGE upsert for a batch updates each existing row matched through a key or unique column and inserts a row for each unmatched record; columns not listed in the column order keep their values, rows not matched are unchanged, keys stay unique, and running the same upsert twice is the same as once.", "quantifier": "all tables, column subsets, table contents and record batches with distinct lookup values", "why_tests_cant": "Row sets and batches are unbounded.", "anchors": ["pysqlsync/base.py:BaseGenerator.get_table_merge_stmt", "pysqlsync/base.py:BaseGenerator.get_table_upsert_stmt"]}
{"id": "C25", "title": "PostgreSQL and MySQL upsert semantics", "statement": "ON CONFLICT / ON DUPLICATE KEY upsert with the full column list inserts unmatched records, overwrites matched rows, leaves other rows unchanged and is idempotent; with a partial column list, columns that are not listed must keep their stored values.", "quantifier": "all tables, column subsets, table contents and batches", "why_tests_cant": "Same as C24; the partial-column case needs a populated table.", "anchors": ["pysqlsync/dialect/postgresql/generator.py:get_table_upsert_stmt", "pysqlsync/dialect/mysql/generator.py:get_table_upsert_stmt"]}
{"id": "C26", "title": "Batching loses and reorders nothing", "statement": "Splitting a record stream into batches yields non-empty batches of at most the batch size whose concatenation is the input in order; all but the last are full; an empty stream yields no batch. Processing is therefore independent of the batch size.", "quantifier": "all record streams (any length) and all positive batch sizes", "why_tests_cant": "Lengths are unbounded; boundaries matter at multiples of the batch size.", "anchors": ["pysqlsync/base.py:_batch_records"]}
{"id": "C27", "title": "Record projection keeps fields aligned", "statement": "When rows are inserted with field names and types, and every field that is omitted by type is also unnamed, value i of each produced record is (the transformed) value of the field whose name is i-th in the column order; NULL values bypass transformation, every input row produces one record in order, and a generator error surfaces rather than shifting columns.", "quantifier": "all row streams, field name/type lists and selections", "why_tests_cant": "Any combination of skipped and transformed fields.", "anchors": ["pysqlsync/base.py:RecordTransformer", "pysqlsync/base.py:BaseContext._generate_records"]}
{"id": "C28", "title": "Label-to-key substitution is consistent", "statement": "When a column is backed by a lookup table, each label in the inserted records is replaced by the key of the lookup row with that label, equal labels get equal keys, distinct labels distinct keys, NULL stays NULL (a NULL list, or NULL inside a list, is refused), unseen labels are added exactly once, and labels already present keep their key across batches and calls.", "quantifier": "all batches, label sets and previous lookup contents", "why_tests_cant": "All histories of batches.", "anchors": ["pysqlsync/base.py:EnumTransformer", "pysqlsync/base.py:BaseContext._merge_lookup_table"]}
{"id": "C29", "title": "Type unification is lossless", "statement": "compatible_type of a list of types of one engine returns a type that can hold every value of each listed type (unsigned integer types: if narrower than the result, or all types equal), independent of list order, or raises CompatibilityError, exactly when the types are of different families; a None limit means unlimited and absorbs.", "quantifier": "all lists of SQL types", "why_tests_cant": "All parameter combinations of limits and widths.", "anchors": ["pysqlsync/model/data_types.py:compatible_type", "pysqlsync/model/data_types.py:max_or_none"]}
{"id": "C30", "title": "Data types survive the round trip through their SQL spelling", "statement": "For each data type in the listed classes (per engine; the exceptions are listed as refuted), what the type discovery makes of the server's report about a column created with the type's SQL spelling is an equal type, so that a freshly created table compares equal to its definition.", "quantifier": "all data types with all parameter values", "why_tests_cant": "Parameters range over all naturals.", "anchors": ["pysqlsync/formation/data_types.py:SqlDiscovery.sql_data_type_from_spec", "pysqlsync/model/data_types.py"]}
{"id": "C31", "title": "Engine-specific types are wide enough", "statement": "The engine-specific spelling chosen for a character, binary or integer type (signed, SQL Server: not of one byte) always has capacity at least the declared limit (in one-byte characters; in any characters where the engine counts characters) or is rejected by the server, and a limit beyond MySQL's largest type is refused by the library.", "quantifier": "all limits (all naturals) per dialect", "why_tests_cant": "Thresholds: off-by-one at any of the size classes.", "anchors": ["pysqlsync/dialect/mysql/data_types.py", "pysqlsync/dialect/oracle/data_types.py", "pysqlsync/dialect/mssql/data_types.py"]}
{"id": "C32", "title": "Constraint discovery regroups rows exactly", "statement": "Feeding the per-column rows of a set of unique and foreign key constraints to the constraint factories, in any interleaving that keeps each constraint's own columns in order, yields back exactly those constraints with columns in order; rows of one constraint that point to different tables are refused.", "quantifier": "all constraint sets and all interleavings of their rows", "why_tests_cant": "Interleavings grow factorially.", "anchors": ["pysqlsync/formation/constraints.py:UniqueFactory", "pysqlsync/formation/constraints.py:ForeignFactory"]}
{"id": "C33", "title": "Flat namespace discovery is isolated", "statement": "Discovering a flat namespace returns exactly the tables created under it, each with its original name, and no table of another namespace, as long as namespace names contain no double underscore and do not end in an underscore and tables outside of namespaces have no double underscore in their names (with Oracle also no dollar sign); dropping the namespace drops exactly those tables.", "quantifier": "all sets of namespaces and tables", "why_tests_cant": "A prefix clash requires particular names.", "anchors": ["pysqlsync/dialect/mysql/discovery.py", "pysqlsync/dialect/oracle/discovery.py", "pysqlsync/formation/discovery.py"]}
{"id": "C34", "title": "Data-class fields become columns one to one", "statement": "Converting a data-class yields a table with exactly one column per field that is not a collection of entities, in declaration order, with the field's name, nullable exactly if the field is optional, with the field's default rendered, and the primary key field as the table's primary key; a class with no key field is refused (of several key fields only the first becomes the primary key).", "quantifier": "all data-class definitions built from the supported type constructors", "why_tests_cant": "Unbounded combinations of nested annotations.", "anchors": ["pysqlsync/formation/py_to_sql.py:DataclassConverter.dataclass_to_table", "pysqlsync/formation/py_to_sql.py:DataclassConverter.member_to_column", "pysqlsync/model/properties.py"]}
{"id": "C35", "title": "Converted catalogs are referentially closed", "statement": "Every foreign key and every user-defined column type in a catalog converted from a set of entity classes refers to a table (by its primary key, of the same type) or a type that the catalog contains, provided that referenced classes are part of the set, class names have no underscore, modules are mapped to different schemas and each has an entity, enumerations that become types have two members, and arrays of structures are used only if structures become types; without one of these provisos it fails.", "quantifier": "all sets of entity classes and all converter options", "why_tests_cant": "Reference patterns and option combinations.", "anchors": ["pysqlsync/formation/py_to_sql.py:DataclassConverter.dataclasses_to_catalog", "pysqlsync/formation/py_to_sql.py:DataclassConverter.dataclass_to_constraints"]}
{"id": "C36", "title": "Integer annotations never shrink", "statement": "The SQL integer type chosen for a fixed-width Python integer annotation can represent every value of the annotated type.", "quantifier": "all values of all fixed-width integer types", "why_tests_cant": "2^64 values; boundaries at unsigned maxima.", "anchors": ["pysqlsync/formation/py_to_sql.py:DataclassConverter.simple_type_to_sql_data_type"]}
{"id": "C37", "title": "Generated constraint names do not clash", "statement": "Within a converted table, and across all tables of one schema of the converted catalog, the generated constraint names (primary, foreign, unique, check, discriminated, join) are pairwise distinct whenever class names are free of the separator characters and modules map to different schemas, and no unique, foreign or discriminated constraint of a class is lost through its name; collisions exist otherwise (shown).", "quantifier": "all table and column names", "why_tests_cant": "Collisions need particular underscore placement.", "anchors": ["pysqlsync/formation/py_to_sql.py:DataclassConverter.create_foreign_key", "pysqlsync/formation/py_to_sql.py:DataclassConverter"]}
{"id": "C38", "title": "Reverse engineering reproduces the class", "statement": "Generating a data-class from a table and converting it back yields the same columns (name, type, nullability) and the same primary key.", "quantifier": "all tables", "why_tests_cant": "All column/type/key combinations.", "anchors": ["pysqlsync/formation/sql_to_py.py:SqlConverter"]}
{"id": "C39", "title": "Tabular text import/export round-trips", "statement": "Writing records with a header and reading them back yields the same records, in order, for every record list and any grouping into write calls, unless a record is written as an empty line (a single column holding an empty text), which the reader takes for the end of the file; header order may differ from field order without mixing columns.", "quantifier": "all record lists, all permutations of columns", "why_tests_cant": "Empty strings, blank lines and column permutations.", "anchors": ["pysqlsync/data/exchange.py:TextWriter", "pysqlsync/data/exchange.py:TextReader"]}
{"id": "C40", "title": "Query results map to objects positionally by name", "statement": "Result set conversion returns one object per row in order with each field taken from the column of the same name (by position with Oracle only); a signature that does not fit the first row is refused; scalar, tuple and class signatures agree on the data.", "quantifier": "all result sets and signatures", "why_tests_cant": "All row counts and shapes.", "anchors": ["pysqlsync/resultset.py:resultset_unwrap_object", "pysqlsync/resultset.py:resultset_unwrap_tuple"]}
{"id": "C41", "title": "TLS policy is enforced", "statement": "With require, verify_ca or verify_full a plaintext connection is never attempted or accepted, whatever fails; verify_ca/verify_full require a valid certificate, host names are checked exactly in verify_full; prefer tries TLS first and allow plaintext first; disable never negotiates TLS.", "quantifier": "all modes and all sequences of attempt outcomes", "why_tests_cant": "All failure schedules of connection attempts.", "anchors": ["pysqlsync/dialect/postgresql/connection.py:PostgreSQLConnection._open", "pysqlsync/dialect/mysql/connection.py:MySQLConnection._open", "pysqlsync/connection.py:create_context"]}
{"id": "C42", "title": "Connection parameters are never confused or leaked", "statement": "Printing connection parameters does not depend on the password; percent-encoded user and password in a connection URL decode to exactly the original text for every text.", "quantifier": "all credentials", "why_tests_cant": "All byte sequences.", "anchors": ["pysqlsync/connection.py:ConnectionParameters", "pysqlsync/factory.py:get_parameters"]}
{"id": "C43", "title": "Dialect registry is a partial map", "statement": "For any sequence of register, unregister and lookup calls the registry behaves as a map from dialect name to engine factory: duplicates and unknown names are refused without changing it, and a lookup returns the engine last registered.", "quantifier": "all call sequences", "why_tests_cant": "Histories are unbounded.", "anchors": ["pysqlsync/factory.py:register_dialect", "pysqlsync/factory.py:unregister_dialect", "pysqlsync/factory.py:get_dialect"]}
{"id": "C44", "title": "Script splitting recovers the statements", "statement": "For engines that execute one statement at a time (Oracle, Redshift), splitting a generated script recovers exactly the generated statements in order, for all statements that contain no line ending in a semicolon and no trailing blanks or semicolons.", "quantifier": "all statement lists", "why_tests_cant": "Statement text is arbitrary.", "anchors": ["pysqlsync/dialect/oracle/connection.py:OracleContext._execute", "pysqlsync/dialect/redshift/connection.py:RedshiftContext._execute"]}
{"id": "C45", "title": "Random test data is valid", "statement": "Generated rows have pairwise distinct primary keys, foreign keys that occur among the referenced keys, strings and numbers within declared bounds, whatever the random choices.", "quantifier": "all tables, row counts and random choices", "why_tests_cant": "All random streams.", "anchors": ["pysqlsync/data/generator.py"]}
{"id": "C46", "title": "Statement lists contain no blanks", "statement": "A statement list accepts optional statements, drops absent ones, keeps order, refuses blank ones; joining yields nothing exactly if there is no statement, so the library never sends an empty script.", "quantifier": "all sequences of appended statements", "why_tests_cant": "Unbounded sequences.", "anchors": ["pysqlsync/formation/object_types.py:StatementList", "pysqlsync/formation/object_types.py:join", "pysqlsync/formation/object_types.py:join_or_none"]}
{"id": "C47", "title": "Lookup helpers on tables are exact", "statement": "is_unique_column, is_lookup_column, is_lookup_table, is_relation, get_constraint, get_primary_column and get_value_columns report exactly the columns for which a single-column unique/foreign constraint or primary key exists, and fail for tables without exactly one key column.", "quantifier": "all tables and columns", "why_tests_cant": "All constraint sets.", "anchors": ["pysqlsync/formation/object_types.py:Table"]}
{"id": "C48", "title": "DELETE removes exactly the requested keys", "statement": "Deleting rows by key removes exactly the rows whose primary key is among the given keys and leaves all others unchanged, and needs a single-column primary key.", "quantifier": "all table contents and key lists", "why_tests_cant": "Unbounded row sets.", "anchors": ["pysqlsync/base.py:BaseGenerator.get_table_delete_stmt", "pysqlsync/base.py:BaseContext.delete_rows"]}
{"id": "C49", "title": "MySQL string constants survive MySQL lexing", "statement": "For every text, the literal sent to MySQL for a string constant is read by MySQL (in the SQL mode the library's own session runs in) as exactly that text.", "quantifier": "all texts and all following statement text", "why_tests_cant": "Quoting must hold for every text, including backslashes and quotes in any position.", "anchors": ["pysqlsync/formation/object_types.py:quote", "pysqlsync/dialect/mysql/connection.py:MySQLConnection.open"]}
{"id": "C50", "title": "Nested statement literals survive lexing", "statement": "For every schema name, the SQL Server CREATE SCHEMA statement executed through a nested string literal executes exactly CREATE SCHEMA of that name.", "quantifier": "all schema names", "why_tests_cant": "All names, including ones containing apostrophes or brackets.", "anchors": ["pysqlsync/dialect/mssql/object_types.py:MSSQLNamespace.create_schema_stmt"]}
{"id": "C51", "title": "Columns of scalar fields hold every declared value", "statement": "The column made from a field declared as int (plain, optional, key or unique) stores every 64-bit integer; as str with a maximum length every text of up to that length; as str any text the engine can hold (16 MB on MySQL); as a choice of literal texts each of these texts; as int with a range all integers of the range, and the table has a CHECK constraint of exactly those bounds. On PostgreSQL, MySQL, SQL Server and Oracle, for every class and whatever the other options.", "quantifier": "all classes, fields, lengths, ranges, literal lists, and the four engines", "why_tests_cant": "Lengths, bounds and literal lists are unbounded; a unit test tries a few.", "anchors": ["pysqlsync/formation/py_to_sql.py:DataclassConverter.simple_type_to_sql_data_type", "pysqlsync/formation/py_to_sql.py:DataclassConverter.create_check_constraint"]}
{"id": "C52", "title": "Converting an enumeration keeps every member", "statement": "Whatever way an enumeration is represented (named type, inline enumeration, CHECK constraint, lookup table), the representation has the values of all its members, in the order of declaration, and nothing else; the lookup table has a generated key and a required unique value column, and the fields refer to it.", "quantifier": "all class sets, enumerations and options", "why_tests_cant": "Member lists and class sets are unbounded.", "anchors": ["pysqlsync/formation/py_to_sql.py:DataclassConverter.dataclasses_to_catalog", "pysqlsync/formation/py_to_sql.py:DataclassConverter._enum_table"]}
{"id": "C53", "title": "Discovery reads back what was created (PostgreSQL)", "statement": "On PostgreSQL, for every set of tables, composite types and enumerations whose data types, defaults and constraints PostgreSQL reports faithfully: once they exist in the database, the discovery queries over the system catalogs return an object model that compares equal to the one that was created, whatever the physical order of catalog rows and whatever other schemas exist; so a second synchronization with the same classes executes nothing. has_table and has_column tell exactly what exists.", "quantifier": "all catalogs of the supported vocabulary, all system-catalog contents that represent the database, all row orders the server may choose", "why_tests_cant": "Row order, dropped columns, other schemas and object identifiers are chosen by the server; integration tests see one server state.", "anchors": ["pysqlsync/dialect/postgresql/discovery.py:PostgreSQLExplorer", "pysqlsync/base.py:BaseContext.synchronize"]}
{"id": "C54", "title": "The text of each statement says exactly what was meant", "statement": "The script produced for creating, mutating or dropping a catalog, read by the engine's rules for identifiers, literals, numbers and comments and by its statement grammar, is the same sequence of statements as was meant: same objects, columns, types, defaults, constraints, comments and rows, in the same order. No name, label, comment, value, default or condition can end a statement early, start another one or change the meaning of a neighbour.", "quantifier": "all catalogs, all names and texts, all scripts of any number of statements, and the seven dialects", "why_tests_cant": "Names and texts are arbitrary strings and scripts have any length; a test compares a few expected strings.", "anchors": ["pysqlsync/formation/object_types.py:Table.create_stmt", "pysqlsync/formation/object_types.py:Column.column_spec", "pysqlsync/formation/object_types.py:Constraint", "pysqlsync/formation/mutation.py:Mutator.mutate_catalog_stmt", "pysqlsync/dialect/mssql/object_types.py:MSSQLTable", "pysqlsync/dialect/oracle/object_types.py:OracleColumn", "pysqlsync/dialect/mysql/object_types.py:MySQLColumn"]}
{"id": "C55", "title": "Columns of truth values, numbers, dates, times and identifiers keep every value", "statement": "A field declared as bool, float, Decimal, datetime, date, time, timedelta, UUID, JSON or an IP address becomes a column of a type that the engine has and in which every value of the Python type is stored unaltered (full microseconds, all digits, all bytes). A Decimal declared with a precision and scale keeps every number of that form, and a datetime or time declared with a precision keeps every value of that precision.", "quantifier": "all classes, fields, options, engines (PostgreSQL, MySQL, SQL Server, Oracle) and all values of the Python type", "why_tests_cant": "Value domains are unbounded or huge; a test inserts a few values, and servers round silently.", "anchors": ["pysqlsync/formation/py_to_sql.py:DataclassConverter.simple_type_to_sql_data_type", "pysqlsync/model/data_types.py:SqlTimestampType", "pysqlsync/model/data_types.py:SqlDecimalType", "pysqlsync/dialect/mysql/generator.py:MySQLGenerator", "pysqlsync/dialect/mssql/generator.py:MSSQLGenerator", "pysqlsync/dialect/oracle/generator.py:OracleGenerator"]}
{"id": "C56", "title": "Parameters of data statements land in their columns", "statement": "The text of the INSERT, insert-or-ignore, upsert and DELETE statement of a table, read by the engine's and the driver's rules, names that table and those columns, whatever characters they contain; parameter n is the value of the n-th requested column (generated columns excepted on insertion), rows are compared on exactly the identifying columns, and exactly the other columns are overwritten. The driver asks for exactly as many values as there are columns.", "quantifier": "all tables, requested column orders, names and the seven dialects", "why_tests_cant": "Names are arbitrary strings and column lists have any length and order.", "anchors": ["pysqlsync/base.py:BaseGenerator.get_table_insert_stmt", "pysqlsync/base.py:BaseGenerator.get_table_merge_stmt", "pysqlsync/base.py:BaseGenerator.get_table_upsert_stmt", "pysqlsync/base.py:BaseGenerator.get_table_delete_stmt", "pysqlsync/dialect/postgresql/generator.py:PostgreSQLGenerator", "pysqlsync/dialect/mysql/generator.py:MySQLGenerator"]}
{"id": "C57", "title": "Discovery reads back what was created (MySQL, SQL Server)", "statement": "On MySQL and SQL Server, for every set of tables whose data types, defaults, comments and constraints the server reports as they were written: once they exist, the discovery queries over the information schema (and sys.columns) return an object model that compares equal to the one that was created (on SQL Server, which is given no comments, without the descriptions), whatever the order of rows and whatever else is on the server; on MySQL the tables of each namespace are told apart by the prefixes of their names. So a second synchronization with the same classes executes nothing: on SQL Server and Oracle no statement depends on a description. has_table and has_column tell exactly what exists.", "quantifier": "all catalogs of the supported vocabulary, all contents of the information schema that represent the database, all row orders the server may choose, all sets of modules", "why_tests_cant": "Row order, other schemas and other tables are chosen by the server; integration tests see one server state.", "anchors": ["pysqlsync/formation/discovery.py:AnsiExplorer", "pysqlsync/dialect/mysql/discovery.py:MySQLExplorer", "pysqlsync/dialect/mssql/discovery.py:MSSQLExplorer", "pysqlsync/base.py:BaseContext.synchronize"]}
{"id": "C58", "title": "Discovery reads back what was created (Oracle)", "statement": "On Oracle, for every set of tables of one user whose names no other user uses, whose data types and defaults the server reports as they were written, with foreign keys of one column: once they exist, the discovery queries over the data dictionary return an object model that compares equal to the one that was created without its descriptions (Oracle is given no comments), whatever the order of rows and whatever else is on the server outside the namespaces asked for; the tables of each namespace are told apart by the prefixes of their names. So a second synchronization with the same classes executes nothing.", "quantifier": "all catalogs of the supported vocabulary, all contents of the data dictionary that represent the database, all row orders the server may choose, all sets of modules", "why_tests_cant": "Row order, other users and other tables are chosen by the server; integration tests see one server state.", "anchors": ["pysqlsync/dialect/oracle/discovery.py:OracleExplorer", "pysqlsync/base.py:BaseContext.synchronize"]}
{"id": "C59", "title": "The catalog of a set of classes can be created in the database, and dropped again", "statement": "For every set of data-classes that is complete and ordinary (as in C35; keys are not optional, collections that become tables are not declared unique, PostgreSQL enumerations are not extended by strings and collections do not refer to types of another module): the object model that the converter makes from them is such that the script that creates it succeeds statement by statement on every database in which the names are free, every type and table is there before it is referred to, afterwards the database has exactly what it had before and the objects of the classes, and the script that drops it restores the database.", "quantifier": "all sets of classes, fields, annotations, options, modules, dialects, and all databases in which the names are free", "why_tests_cant": "Classes, fields and their references are arbitrary; a test creates a few examples, and a wrong order or a missing column only shows with other classes.", "anchors": ["pysqlsync/formation/py_to_sql.py:DataclassConverter.dataclasses_to_catalog", "pysqlsync/formation/object_types.py:Catalog.create_stmt", "pysqlsync/formation/object_types.py:Catalog.drop_stmt", "pysqlsync/base.py:BaseContext.create_objects"]}
{"id": "C60", "title": "Dropping a schema removes its objects, and nothing else", "statement": "drop_schema(namespace) leaves the database without the objects of the schema (on MySQL and Oracle: without the tables whose names begin with the namespace and two underscores) and otherwise as it was, whatever else is in the database, however the tables of the schema refer to each other, and in whatever order the server lists tables and constraints, provided that nothing outside refers to the schema (on Oracle foreign keys from outside are dropped). A catalog that has been created in a free namespace and is then dropped with drop_schema leaves the database as it was. The commands sent name exactly these objects, whatever characters their names have.", "quantifier": "all databases, all names, all answers (orders) of the server; PostgreSQL, SQL Server, MySQL, Oracle", "why_tests_cant": "The contents of the database, the reference graph and the order of the answers are arbitrary; a test sees one server state.", "anchors": ["pysqlsync/base.py:BaseContext.drop_schema", "pysqlsync/base.py:BaseContext.drop_table_if_exists", "pysqlsync/dialect/mssql/connection.py:MSSQLContext.drop_schema", "pysqlsync/dialect/mysql/connection.py:MySQLContext.drop_schema", "pysqlsync/dialect/oracle/connection.py:OracleContext.drop_schema", "pysqlsync/dialect/postgresql/object_types.py:PostgreSQLNamespace"]}
{"id": "C61", "title": "The creation script of a set of classes is text that the engine reads as meant", "statement": "For a set of data classes and enumerations, the script that is generated to create all of their objects is, as text, accepted by the engine's lexical and grammatical rules as one command per generated statement, and each command says what is meant: the same names, types, defaults, checks, labels and references, whatever characters the names, labels, defaults and descriptions have (MySQL: no backslash). Run on a database that does not use the names, it creates exactly the objects of the catalog. The same holds of the script that drops them, which is read as meant.", "quantifier": "all sets of classes (any number, any references, any text in labels, defaults and descriptions), all options, all dialects", "why_tests_cant": "Text is assembled from many places (type names, check conditions of enumerations, automatic defaults, value rows, descriptions); a test compares the script of a few classes with a literal.", "anchors": ["pysqlsync/formation/py_to_sql.py:DataclassConverter.dataclasses_to_catalog", "pysqlsync/formation/py_to_sql.py:DataclassConverter.member_to_column", "pysqlsync/formation/object_types.py:Catalog.create_stmt", "pysqlsync/model/data_types.py:constant"]}
{"id": "C62", "title": "Adding classes adds objects and changes nothing else", "statement": "If classes or modules are added to a set of classes that stay as they are, the statements generated to bring the database from the catalog of the former to the catalog of all classes succeed and leave the database with the objects of all classes, as if they had been created together; every schema, type and table that existed before, known to the generator or not, is exactly as it was. The statements only create and fill new objects, they are generated whenever all classes could be created at once, and, unless an existing namespace or a new one refers to a new object of another existing namespace, the schema is consistent after every one of them. Between the catalogs of any two sets of classes, the script that is generated is text that the engine reads as meant, statement by statement.", "quantifier": "all pairs of sets of classes, all databases that have the objects of the first and do not use the added names, all mutation options, all dialects", "why_tests_cant": "The tables of a class depend on other classes (relations, enumerations, join tables, name collisions), so that adding a class may change the objects of another; a test adds one class to one model.", "anchors": ["pysqlsync/formation/py_to_sql.py:DataclassConverter.dataclasses_to_catalog", "pysqlsync/formation/mutation.py:Mutator.mutate_catalog_stmt", "pysqlsync/base.py:BaseGenerator.get_mutate_stmt"]}
{"id": "C63", "title": "Rows copied to Redshift arrive as they were", "statement": "The stream that insert_data and insert_rows copy to Redshift is read by the engine as the records, in order, each value in its column: text as it is, numbers, truth values and binary data as literals of their value, None as NULL; and it does not matter how the records are divided into batches.", "quantifier": "all sequences of records, all divisions into batches", "why_tests_cant": "Text is arbitrary and may contain what separates columns and rows; a test inserts a few rows of harmless text.", "anchors": ["pysqlsync/dialect/redshift/connection.py:RedshiftContext._insert_copy_stream", "pysqlsync/dialect/redshift/connection.py:RedshiftContext.insert_data", "pysqlsync/dialect/redshift/generator.py:RedshiftGenerator.get_value_transformer"]}
{"id": "C64", "title": "Parameters are declared with the types of their columns", "statement": "When records are inserted, upserted or deleted on SQL Server or Oracle, the driver is told the type of every parameter in advance. For every table and every choice and order of fields: there is one declared type for each parameter of the statement that the server reads, and the parameter that gives the value of a column is declared with the type of that very column. The declared type carries every value that the column can hold: every integer in the range of the column, every text and byte string within the limit, every decimal number within precision and scale, every time.", "quantifier": "all tables, all choices and orders of fields, all column types, limits, precisions and values", "why_tests_cant": "The alignment depends on which columns the statement lists; widths are compared with limits at boundaries that only certain values reach.", "anchors": ["pysqlsync/dialect/mssql/connection.py:MSSQLContext._execute_typed", "pysqlsync/dialect/mssql/data_types.py:sql_to_odbc_type", "pysqlsync/dialect/oracle/connection.py:OracleContext._execute_typed", "pysqlsync/dialect/oracle/data_types.py:sql_to_oracle_type", "pysqlsync/base.py:BaseContext._insert_rows", "pysqlsync/base.py:BaseContext._upsert_rows", "pysqlsync/base.py:BaseContext._delete_rows"]}
{"id": "C65", "title": "Objects are stored field by field in the columns of their names", "statement": "insert_data with a sequence of objects of a data class stores one row per object, in the order given, in the table of the class: every column whose value is not generated by the database receives the value of the field of the same name in the form that the column holds (labels for enumeration members, 16 bytes for UUIDs and packed bytes for addresses where columns are binary), and no other column receives a value. upsert_data does the same with every column, also generated keys. delete_data deletes the rows whose primary key is one of the keys given.", "quantifier": "all data classes, all dialects, all sequences of objects, all values of fields", "why_tests_cant": "The statement, the extractors and the table each enumerate fields on their own and have to agree for every combination of field types and annotations; a test inserts objects of a few classes.", "anchors": ["pysqlsync/base.py:BaseContext.insert_data", "pysqlsync/base.py:BaseContext.upsert_data", "pysqlsync/base.py:BaseContext.delete_data", "pysqlsync/base.py:BaseGenerator.get_dataclass_as_record", "pysqlsync/base.py:BaseGenerator.get_field_extractor", "pysqlsync/dialect/postgresql/connection.py:PostgreSQLContext.insert_data"]}
{"id": "C66", "title": "Classes derived from classes have the expected tables", "statement": "make_entity(cls, key) makes a class whose table has exactly the given field as its primary key and otherwise the same columns as the fields of cls, whatever they are; a name that is no field is refused. flatten_dataclass with make_dataclass makes a class whose table has one column for every plain field and, for every field of a structure type, one column for each field of the structure, named by both; each column has the nullability, default and description of the field that it stands for.", "quantifier": "all data classes, all keys, all conversion options", "why_tests_cant": "Types, defaults, documentation, name collisions and the order of required and optional fields interact in every combination; the tests derive one class each.", "anchors": ["pysqlsync/model/entity_types.py:make_entity", "pysqlsync/model/entity_types.py:key_value_fields", "pysqlsync/util/dataclasses.py:flatten_dataclass", "pysqlsync/util/dataclasses.py:make_dataclass"]}
{"id": "C67", "title": "Python source of classes is read by Python as these classes", "statement": "The code that module_to_code (enum_class_to_code, dataclass_to_code) writes for the enumerations and data-classes of a module is Python source that, when run, makes the same classes in the same order: names, bases, decorators, descriptions (also of members), members and their values, class variables, fields with their types and defaults, whatever quotation marks, backslashes, line feeds and control characters texts contain; every name that the code uses is defined. A module with a class of another kind is refused.", "quantifier": "all modules of enumerations and data-classes, all texts, numbers and other values as members, defaults, class variables and descriptions", "why_tests_cant": "Quoting depends on every combination of characters in the texts, and the code must be parsed as a whole; the tests compare the output for two classes with simple texts.", "anchors": ["pysqlsync/python_types.py:module_to_code", "pysqlsync/python_types.py:dataclass_to_code", "pysqlsync/python_types.py:enum_class_to_code"]}
{"id": "C68", "title": "Host, port, credentials and database reach the server as they were given", "statement": "For SQL Server and Oracle, whose drivers take host, port or database as one text, the driver reads from the text that open() composes exactly the host, port, user name, password and database of the connection parameters (defaults where none was given), whatever characters they contain, and no other setting can be changed through them.", "quantifier": "all connection parameters: all texts as host name, user name, password and database, all ports, any of these missing", "why_tests_cant": "It depends on every combination of characters in five texts and on what is missing; the tests use one set of parameters without special characters.", "anchors": ["pysqlsync/dialect/mssql/connection.py:MSSQLConnection.open", "pysqlsync/dialect/oracle/connection.py:OracleConnection.open"]}
{"id": "C69", "title": "Blocking driver calls of a task never overlap", "statement": "Whatever the schedule of threads and event loop and whatever tasks are cancelled at whatever moment, the driver calls that a task makes through thread_dispatch happen one after the other; each caller gets the outcome of its own call and no other; while the task runs code of its own, also the code that closes a connection after a cancellation, no thread is still at work on one of its calls; other tasks go on meanwhile.", "quantifier": "all schedules, all points of cancellation, all numbers of tasks and calls, all outcomes of calls", "why_tests_cant": "A race between a cancellation and a thread shows only in rare schedules.", "anchors": ["pysqlsync/util/dispatch.py:thread_dispatch"]}
