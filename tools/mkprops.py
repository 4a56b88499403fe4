#!/usr/bin/env python3
"""Regenerates /verif/properties.jsonl (kept in source form here because JSON lines are hard to edit)."""
import json, os
P = []
def p(id, title, statement, quantifier, why, anchors):
    P.append(dict(id=id, title=title, statement=statement, quantifier=quantifier, why_tests_cant=why, anchors=anchors))

D="pysqlsync/model/data_types.py"; I="pysqlsync/model/id_types.py"; O="pysqlsync/formation/object_types.py"
M="pysqlsync/formation/mutation.py"; B="pysqlsync/base.py"; C="pysqlsync/formation/py_to_sql.py"

p("C01","String constants survive SQL lexing",
"For every text, the SQL literal produced by quote() is read by a standard SQL scanner (opening apostrophe, doubled apostrophe stands for one, first undoubled apostrophe closes) as exactly that text, and the scanner stops exactly at the end of the literal whatever statement text follows (as long as it does not start with an apostrophe). Hence different texts give different literals, no text can terminate its literal early, and an enumeration value list rendered from such literals is read back as the same list of values.",
"all texts, all continuations of the statement, all lists of enumeration values",
"The text ranges over all strings, including every placement and number of apostrophes; a unit test samples a handful.",
[f"{D}:quote",f"{D}:constant",f"{D}:SqlEnumType.__str__",f"{O}:EnumType.create_stmt"])
p("C02","Quoted identifiers are unambiguous",
"For every local or schema-qualified identifier, the quoted form embedded in SQL is scanned back to exactly the same (optional schema, name) pair and nothing of the following statement text is consumed; two identifiers that differ have different quoted forms. The same holds for MySQL's back-tick quoting of query parameters.",
"all schema and object names (any characters, including quotes and dots) and all continuations that do not begin with the quote character (or a dot after an unqualified name)",
"Names are arbitrary strings; injection and aliasing depend on characters a test author did not think of.",
[f"{I}:quote_id",f"{I}:LocalId.quoted_id",f"{I}:QualifiedId.quoted_id","pysqlsync/dialect/mysql/connection.py:quoted_id"])
p("C03","PostgreSQL description literals survive lexing",
"For every description text, the literal emitted in COMMENT ON ... IS for PostgreSQL is read back by a PostgreSQL scanner (plain literals with doubled apostrophes, E'' literals with backslash escapes) as exactly the description, for any following text that does not start with an apostrophe.",
"all description texts (all mixes of apostrophes, backslashes and control characters) and all continuations",
"The two rendering branches interact with every character combination.",
["pysqlsync/dialect/postgresql/object_types.py:sql_quoted_string"])
p("C04","Delta and Snowflake description literals survive lexing",
"For every description text, the COMMENT literal emitted for Delta Lake and for Snowflake is read back by that engine's scanner (backslash escapes; Snowflake also doubled apostrophes) as exactly the description, for any following text that does not start with an apostrophe.",
"all description texts and all continuations",
"Same as C03: unbounded strings and two branches.",
["pysqlsync/dialect/delta/object_types.py:sql_quoted_string","pysqlsync/dialect/snowflake/object_types.py:sql_quoted_string"])
p("C05","LIKE prefix search is exact",
"For every namespace name, the LIKE pattern that flat-namespace discovery builds with escape_like selects exactly the table names that start with the name followed by two underscores: no wildcard character in the name is interpreted, and the pattern survives embedding in an SQL string literal.",
"all namespace names and all candidate table names",
"LIKE wildcards and the escape character may occur anywhere in the name.",
[f"{D}:escape_like","pysqlsync/dialect/mysql/discovery.py","pysqlsync/dialect/oracle/discovery.py"])
p("C06","Flat (prefixed) identifiers: when two objects can collide",
"With prefixed identifiers (MySQL, Oracle), two objects of different (namespace, name) receive different database names, and splitting a database name recovers (namespace, name), provided namespaces contain no double underscore and do not end in an underscore; without the proviso two distinct objects do share one database name.",
"all pairs of namespace and object names",
"A collision needs a specific placement of underscores; tests use ordinary names.",
[f"{I}:PrefixedId","pysqlsync/formation/discovery.py","pysqlsync/dialect/mysql/discovery.py","pysqlsync/dialect/oracle/discovery.py"])
p("C07","Composite constants are unambiguous",
"constant() renders strings, Booleans, integers and arbitrarily nested tuples so that a reader of SQL row-value syntax recovers exactly the same value; any value containing an unsupported component is rejected with an error rather than rendered.",
"all nested tuples of strings, Booleans and integers, of any depth and width",
"Nesting depth, width and string content are unbounded.",
[f"{D}:constant",f"{O}:EnumTable.create_stmt"])
p("C08","Named collections behave as insertion-ordered maps",
"Whatever sequence of add, remove, sort and reorder operations is applied to an object collection, it behaves like a finite map from name to object with a duplicate-free key order: lookups return the last successful add, add of a present name and remove/reorder of an absent name fail and change nothing, length equals the number of distinct names, and difference/intersection split one collection exactly by membership in the other, in its own order.",
"all operation histories and all pairs of collections",
"Histories are unbounded; invariants must hold after each.",
["pysqlsync/formation/object_dict.py:ObjectDict"])
p("C09","Merging catalogs is a conflict-checked union",
"Merging catalog B into catalog A succeeds exactly when every object present in both has equal definitions (all attributes; members, columns and constraints in any order; the seeded labels of an enumeration table are not compared); the result contains exactly the objects of A and B with their definitions, keeps A's order and appends B's new objects in B's order. Merging is idempotent, merging the empty catalog is the identity, and merge order does not change the set of objects.",
"all pairs and triples of catalogs",
"Requires all overlaps between two catalogs of any size.",
[f"{O}:Namespace.merge",f"{O}:Catalog.merge"])
p("C10","Namespaces are emitted in dependency order",
"Sorting a catalog returns a permutation of its namespaces in which each namespace comes after every other namespace its tables or types refer to; it succeeds exactly when cross-namespace references form no cycle (self references are fine), and otherwise fails instead of emitting a wrong order.",
"all catalogs, i.e. all finite reference graphs between namespaces",
"The graph may have any size and shape.",
[f"{O}:Catalog.sort",f"{O}:Namespace.get_referenced_namespaces"])
p("C11","The CREATE script builds exactly the catalog",
"Executing the CREATE script of a well-formed catalog followed by its constraint script on a database that has none of its names succeeds (each object is created before any object or constraint that refers to it) and leaves exactly the catalog's schemas, enumeration types, composite types, tables with their columns and primary keys, and constraints, without touching anything that was there before.",
"all well-formed catalogs and all database states that have none of the catalog's names",
"Ordering bugs appear only for particular reference patterns.",
[f"{O}:Catalog.create_stmt",f"{O}:Namespace.create_objects_stmt",f"{O}:Table.create_stmt",f"{O}:Table.add_constraints_stmt"])
p("C12","DROP undoes CREATE",
"Executing the constraint-drop and DROP script of a catalog on a database in which that catalog was created restores exactly the state before creation: everything in the catalog disappears, everything else stays.",
"all well-formed catalogs and all database states",
"Depends on reversed ordering for all object sets.",
[f"{O}:Catalog.drop_stmt",f"{O}:Namespace.drop_objects_stmt",f"{O}:Namespace.drop_constraints_stmt"])
p("C13","Schema mutation reaches the target",
"Executing the statements that the mutator generates for (source, target) on a database in the source state succeeds and yields a database in the target state: same schemas, enumeration values, composite types, tables, column types, nullability, defaults and identity, and the same alterable constraints; objects outside the two catalogs are untouched.",
"all pairs of source and target catalogs for which a mutation is offered (no error), all default options",
"The cross product of all add/drop/alter/rename combinations is unbounded.",
[f"{M}:Mutator.mutate_catalog_stmt",f"{M}:Mutator.mutate_namespace_stmt",f"{M}:Mutator.mutate_table_stmt",f"{M}:Mutator.mutate_column_stmt"])
p("C14","Mutating to an equal catalog is a no-op",
"When source and target catalogs are equal (the same objects with equal definitions, in any order), the mutator generates no statement at all, for every dialect; conversely if it generates nothing then executing nothing is right: the two catalogs agree on all enumerations, types, tables, columns and alterable constraints.",
"all catalogs and all reorderings of their members, all dialect mutators",
"Needs equality on every attribute of every object.",
[f"{M}:Mutator","pysqlsync/dialect/postgresql/mutation.py","pysqlsync/dialect/mysql/mutation.py","pysqlsync/dialect/mssql/mutation.py","pysqlsync/dialect/oracle/mutation.py"])
p("C15","Drop protection is honoured",
"With allow_drop_table (respectively allow_drop_enum, allow_drop_struct, allow_drop_namespace) off, no generated statement drops a table (enumeration type, composite type, schema) of a namespace present in both catalogs (for allow_drop_namespace: of any namespace), whatever the source and target are; objects that would have been dropped still exist unaltered after execution.",
"all pairs of catalogs and all combinations of the four options",
"A destructive statement is exceptional and depends on the pair of catalogs.",
[f"{M}:MutatorOptions",f"{M}:Mutator.mutate_namespace_stmt",f"{M}:Mutator.mutate_catalog_stmt"])
p("C16","Mutation leaves unrelated objects and data alone",
"A mutation never drops, renames or re-creates a column whose name and type are the same in source and target, never touches a table whose definition is unchanged, and never names any object that is in neither catalog; stored values in retained columns are the same after the mutation.",
"all pairs of tables/catalogs and all stored rows",
"Data preservation must hold for all rows and all column combinations.",
[f"{M}:Mutator.mutate_table_stmt",f"{M}:Mutator.is_column_migrated"])
p("C17","Enumeration mutation never loses values",
"An enumeration mutation is refused exactly when some source value is absent from the target; otherwise the generated statements add exactly the target values missing in the source, once each in target order, and the resulting value set equals the target's.",
"all pairs of value lists",
"Unbounded value lists with arbitrary overlaps.",
[f"{M}:Mutator.mutate_enum_stmt"])
p("C18","Enumeration columns migrate to lookup tables without losing data",
"When an enumeration-typed (PostgreSQL, MySQL) column becomes a foreign key into a lookup table, after the generated statements run every row's new value is the key of the lookup row whose label equals the row's old value, NULL stays NULL, all other columns are unchanged and no label is lost from the lookup table.",
"all rows, all label sets, all previous contents of the lookup table",
"Must hold for all data; unit tests have no database.",
[f"{M}:Mutator.migrate_enum_stmt","pysqlsync/dialect/postgresql/mutation.py:PostgreSQLMutator.migrate_column_stmt","pysqlsync/dialect/mysql/mutation.py:MySQLMutator.migrate_column_stmt"])
p("C19","Composite type mutation reaches the target members",
"The statements generated for a pair of composite types turn the source member list into one with exactly the target's members and types, keep members common to both in place, and are empty only if the members already agree.",
"all pairs of composite types",
"All overlaps of member lists.",
[f"{M}:Mutator.mutate_struct_stmt"])
p("C20","Column alteration reaches the target column",
"For each dialect, applying the generated column alteration to a column in the source state yields the target's data type, nullability, default and identity, and nothing is generated when they already agree; MSSQL refuses exactly the identity changes.",
"all pairs of columns, per dialect",
"The product of four attributes and unbounded types/defaults.",
[f"{M}:Mutator.mutate_column_stmt","pysqlsync/dialect/mysql/mutation.py:MySQLMutator.mutate_column_stmt","pysqlsync/dialect/mssql/mutation.py:MSSQLMutator","pysqlsync/dialect/oracle/mutation.py:OracleMutator.mutate_column_stmt"])
p("C21","Generator state follows the database",
"For any sequence of create, drop and mutate calls on a generator whose statements are all executed, the state the generator believes in equals the database's schema after each step; a call that raises leaves the believed state unchanged.",
"all finite sequences of generator calls, with failures at any point",
"Call histories and failure points are unbounded.",
[f"{B}:BaseGenerator.create",f"{B}:BaseGenerator.drop",f"{B}:BaseGenerator.mutate",f"{B}:BaseContext"])
p("C22","Synchronization converges",
"After a successful synchronize, discovering the database and mutating again towards the same entities yields no statement (for catalogs whose constraints discovery can see); if synchronize fails midway the believed state is not advanced.",
"all target catalogs, all initial database states, all failure points",
"Requires all reachable database states.",
[f"{B}:BaseContext",f"{B}:Explorer"])
p("C23","INSERT statements are aligned with their records",
"For every table and column order, the generated INSERT has exactly one placeholder per named column, names only columns of the table in the given order, leaves out identity columns, and is refused when a requested column does not exist.",
"all tables and all column orders",
"All subsets and orders of columns.",
[f"{B}:BaseGenerator.get_table_insert_stmt",f"{O}:Table.get_columns"])
p("C24","MERGE-based upsert semantics",
"Running the generated MERGE upsert for a batch updates each existing row matched through a key or unique column and inserts a row for each unmatched record; columns not listed in the column order keep their values, rows not matched are unchanged, keys stay unique, and running the same upsert twice is the same as once.",
"all tables, column subsets, table contents and record batches with distinct lookup values",
"Row sets and batches are unbounded.",
[f"{B}:BaseGenerator.get_table_merge_stmt",f"{B}:BaseGenerator.get_table_upsert_stmt"])
p("C25","PostgreSQL and MySQL upsert semantics",
"ON CONFLICT / ON DUPLICATE KEY upsert with the full column list inserts unmatched records, overwrites matched rows, leaves other rows unchanged and is idempotent; with a partial column list, columns that are not listed must keep their stored values.",
"all tables, column subsets, table contents and batches",
"Same as C24; the partial-column case needs a populated table.",
["pysqlsync/dialect/postgresql/generator.py:get_table_upsert_stmt","pysqlsync/dialect/mysql/generator.py:get_table_upsert_stmt"])
p("C26","Batching loses and reorders nothing",
"Splitting a record stream into batches yields non-empty batches of at most the batch size whose concatenation is the input in order; all but the last are full; an empty stream yields no batch. Processing is therefore independent of the batch size.",
"all record streams (any length) and all positive batch sizes",
"Lengths are unbounded; boundaries matter at multiples of the batch size.",
[f"{B}:_batch_records"])
p("C27","Record projection keeps fields aligned",
"When rows are inserted with field names and types, and every field that is omitted by type is also unnamed, value i of each produced record is (the transformed) value of the field whose name is i-th in the column order; NULL values bypass transformation, every input row produces one record in order, and a generator error surfaces rather than shifting columns.",
"all row streams, field name/type lists and selections",
"Any combination of skipped and transformed fields.",
[f"{B}:RecordTransformer",f"{B}:BaseContext._generate_records"])
p("C28","Label-to-key substitution is consistent",
"When a column is backed by a lookup table, each label in the inserted records is replaced by the key of the lookup row with that label, equal labels get equal keys, distinct labels distinct keys, NULL stays NULL (a NULL list, or NULL inside a list, is refused), unseen labels are added exactly once, and labels already present keep their key across batches and calls.",
"all batches, label sets and previous lookup contents",
"All histories of batches.",
[f"{B}:EnumTransformer",f"{B}:BaseContext._merge_lookup_table"])
p("C29","Type unification is lossless",
"compatible_type of a list of types of one engine returns a type that can hold every value of each listed type (unsigned integer types: if narrower than the result, or all types equal), independent of list order, or raises CompatibilityError, exactly when the types are of different families; a None limit means unlimited and absorbs.",
"all lists of SQL types",
"All parameter combinations of limits and widths.",
[f"{D}:compatible_type",f"{D}:max_or_none"])
p("C30","Data types survive the round trip through their SQL spelling",
"For each data type in the listed classes (per engine; the exceptions are listed as refuted), what the type discovery makes of the server's report about a column created with the type's SQL spelling is an equal type, so that a freshly created table compares equal to its definition.",
"all data types with all parameter values",
"Parameters range over all naturals.",
["pysqlsync/formation/data_types.py:SqlDiscovery.sql_data_type_from_spec",f"{D}"])
p("C31","Engine-specific types are wide enough",
"The engine-specific spelling chosen for a character, binary or integer type (signed, SQL Server: not of one byte) always has capacity at least the declared limit (in one-byte characters; in any characters where the engine counts characters) or is rejected by the server, and a limit beyond MySQL's largest type is refused by the library.",
"all limits (all naturals) per dialect",
"Thresholds: off-by-one at any of the size classes.",
["pysqlsync/dialect/mysql/data_types.py","pysqlsync/dialect/oracle/data_types.py","pysqlsync/dialect/mssql/data_types.py"])
p("C32","Constraint discovery regroups rows exactly",
"Feeding the per-column rows of a set of unique and foreign key constraints to the constraint factories, in any interleaving that keeps each constraint's own columns in order, yields back exactly those constraints with columns in order; rows of one constraint that point to different tables are refused.",
"all constraint sets and all interleavings of their rows",
"Interleavings grow factorially.",
["pysqlsync/formation/constraints.py:UniqueFactory","pysqlsync/formation/constraints.py:ForeignFactory"])
p("C33","Flat namespace discovery is isolated",
"Discovering a flat namespace returns exactly the tables created under it, each with its original name, and no table of another namespace, as long as namespace names contain no double underscore and do not end in an underscore and tables outside of namespaces have no double underscore in their names (with Oracle also no dollar sign); dropping the namespace drops exactly those tables.",
"all sets of namespaces and tables",
"A prefix clash requires particular names.",
["pysqlsync/dialect/mysql/discovery.py","pysqlsync/dialect/oracle/discovery.py","pysqlsync/formation/discovery.py"])
p("C34","Data-class fields become columns one to one",
"Converting a data-class yields a table with exactly one column per field that is not a collection of entities, in declaration order, with the field's name, nullable exactly if the field is optional, with the field's default rendered, and the primary key field as the table's primary key; a class with no key field is refused (of several key fields only the first becomes the primary key).",
"all data-class definitions built from the supported type constructors",
"Unbounded combinations of nested annotations.",
[f"{C}:DataclassConverter.dataclass_to_table",f"{C}:DataclassConverter.member_to_column","pysqlsync/model/properties.py"])
p("C35","Converted catalogs are referentially closed",
"Every foreign key and every user-defined column type in a catalog converted from a set of entity classes refers to a table (by its primary key, of the same type) or a type that the catalog contains, provided that referenced classes are part of the set, class names have no underscore, modules are mapped to different schemas and each has an entity, enumerations that become types have two members, and arrays of structures are used only if structures become types; without one of these provisos it fails.",
"all sets of entity classes and all converter options",
"Reference patterns and option combinations.",
[f"{C}:DataclassConverter.dataclasses_to_catalog",f"{C}:DataclassConverter.dataclass_to_constraints"])
p("C36","Integer annotations never shrink",
"The SQL integer type chosen for a fixed-width Python integer annotation can represent every value of the annotated type.",
"all values of all fixed-width integer types",
"2^64 values; boundaries at unsigned maxima.",
[f"{C}:DataclassConverter.simple_type_to_sql_data_type"])
p("C37","Generated constraint names do not clash",
"Within a converted table, and across all tables of one schema of the converted catalog, the generated constraint names (primary, foreign, unique, check, discriminated, join) are pairwise distinct whenever class names are free of the separator characters and modules map to different schemas, and no unique, foreign or discriminated constraint of a class is lost through its name; collisions exist otherwise (shown).",
"all table and column names",
"Collisions need particular underscore placement.",
[f"{C}:DataclassConverter.create_foreign_key",f"{C}:DataclassConverter"])
p("C38","Reverse engineering reproduces the class",
"Generating a data-class from a table and converting it back yields the same columns (name, type, nullability) and the same primary key.",
"all tables",
"All column/type/key combinations.",
["pysqlsync/formation/sql_to_py.py:SqlConverter"])
p("C39","Tabular text import/export round-trips",
"Writing records with a header and reading them back yields the same records, in order, for every record list and any grouping into write calls, unless a record is written as an empty line (a single column holding an empty text), which the reader takes for the end of the file; header order may differ from field order without mixing columns.",
"all record lists, all permutations of columns",
"Empty strings, blank lines and column permutations.",
["pysqlsync/data/exchange.py:TextWriter","pysqlsync/data/exchange.py:TextReader"])
p("C40","Query results map to objects positionally by name",
"Result set conversion returns one object per row in order with each field taken from the column of the same name (by position with Oracle only); a signature that does not fit the first row is refused; scalar, tuple and class signatures agree on the data.",
"all result sets and signatures",
"All row counts and shapes.",
["pysqlsync/resultset.py:resultset_unwrap_object","pysqlsync/resultset.py:resultset_unwrap_tuple"])
p("C41","TLS policy is enforced",
"With require, verify_ca or verify_full a plaintext connection is never attempted or accepted, whatever fails; verify_ca/verify_full require a valid certificate, host names are checked exactly in verify_full; prefer tries TLS first and allow plaintext first; disable never negotiates TLS.",
"all modes and all sequences of attempt outcomes",
"All failure schedules of connection attempts.",
["pysqlsync/dialect/postgresql/connection.py:PostgreSQLConnection._open","pysqlsync/dialect/mysql/connection.py:MySQLConnection._open","pysqlsync/connection.py:create_context"])
p("C42","Connection parameters are never confused or leaked",
"Printing connection parameters does not depend on the password; percent-encoded user and password in a connection URL decode to exactly the original text for every text.",
"all credentials",
"All byte sequences.",
["pysqlsync/connection.py:ConnectionParameters","pysqlsync/factory.py:get_parameters"])
p("C43","Dialect registry is a partial map",
"For any sequence of register, unregister and lookup calls the registry behaves as a map from dialect name to engine factory: duplicates and unknown names are refused without changing it, and a lookup returns the engine last registered.",
"all call sequences",
"Histories are unbounded.",
["pysqlsync/factory.py:register_dialect","pysqlsync/factory.py:unregister_dialect","pysqlsync/factory.py:get_dialect"])
p("C44","Script splitting recovers the statements",
"For engines that execute one statement at a time (Oracle, Redshift), splitting a generated script recovers exactly the generated statements in order, for all statements that contain no line ending in a semicolon and no trailing blanks or semicolons.",
"all statement lists",
"Statement text is arbitrary.",
["pysqlsync/dialect/oracle/connection.py:OracleContext._execute","pysqlsync/dialect/redshift/connection.py:RedshiftContext._execute"])
p("C45","Random test data is valid",
"Generated rows have pairwise distinct primary keys, foreign keys that occur among the referenced keys, strings and numbers within declared bounds, whatever the random choices.",
"all tables, row counts and random choices",
"All random streams.",
["pysqlsync/data/generator.py"])
p("C46","Statement lists contain no blanks",
"A statement list accepts optional statements, drops absent ones, keeps order, refuses blank ones; joining yields nothing exactly if there is no statement, so the library never sends an empty script.",
"all sequences of appended statements",
"Unbounded sequences.",
[f"{O}:StatementList",f"{O}:join",f"{O}:join_or_none"])
p("C47","Lookup helpers on tables are exact",
"is_unique_column, is_lookup_column, is_lookup_table, is_relation, get_constraint, get_primary_column and get_value_columns report exactly the columns for which a single-column unique/foreign constraint or primary key exists, and fail for tables without exactly one key column.",
"all tables and columns",
"All constraint sets.",
[f"{O}:Table"])
p("C48","DELETE removes exactly the requested keys",
"Deleting rows by key removes exactly the rows whose primary key is among the given keys and leaves all others unchanged, and needs a single-column primary key.",
"all table contents and key lists",
"Unbounded row sets.",
[f"{B}:BaseGenerator.get_table_delete_stmt",f"{B}:BaseContext.delete_rows"])
p("C49","MySQL string constants survive MySQL lexing",
"For every text, the literal sent to MySQL for a string constant is read by MySQL (in the SQL mode the library's own session runs in) as exactly that text.",
"all texts and all following statement text",
"Quoting must hold for every text, including backslashes and quotes in any position.",
[f"{O}:quote","pysqlsync/dialect/mysql/connection.py:MySQLConnection.open"])
p("C50","Nested statement literals survive lexing",
"For every schema name, the SQL Server CREATE SCHEMA statement executed through a nested string literal executes exactly CREATE SCHEMA of that name.",
"all schema names",
"All names, including ones containing apostrophes or brackets.",
["pysqlsync/dialect/mssql/object_types.py:MSSQLNamespace.create_schema_stmt"])
p("C51","Columns of scalar fields hold every declared value",
"The column made from a field declared as int (plain, optional, key or unique) stores every 64-bit integer; as str with a maximum length every text of up to that length; as str any text the engine can hold (16 MB on MySQL); as a choice of literal texts each of these texts; as int with a range all integers of the range, and the table has a CHECK constraint of exactly those bounds. On PostgreSQL, MySQL, SQL Server and Oracle, for every class and whatever the other options.",
"all classes, fields, lengths, ranges, literal lists, and the four engines",
"Lengths, bounds and literal lists are unbounded; a unit test tries a few.",
["pysqlsync/formation/py_to_sql.py:DataclassConverter.simple_type_to_sql_data_type","pysqlsync/formation/py_to_sql.py:DataclassConverter.create_check_constraint"])
p("C52","Converting an enumeration keeps every member",
"Whatever way an enumeration is represented (named type, inline enumeration, CHECK constraint, lookup table), the representation has the values of all its members, in the order of declaration, and nothing else; the lookup table has a generated key and a required unique value column, and the fields refer to it.",
"all class sets, enumerations and options",
"Member lists and class sets are unbounded.",
["pysqlsync/formation/py_to_sql.py:DataclassConverter.dataclasses_to_catalog","pysqlsync/formation/py_to_sql.py:DataclassConverter._enum_table"])
p("C53","Discovery reads back what was created (PostgreSQL)",
"On PostgreSQL, for every set of tables, composite types and enumerations whose data types, defaults and constraints PostgreSQL reports faithfully: once they exist in the database, the discovery queries over the system catalogs return an object model that compares equal to the one that was created, whatever the physical order of catalog rows and whatever other schemas exist; so a second synchronization with the same classes executes nothing. has_table and has_column tell exactly what exists.",
"all catalogs of the supported vocabulary, all system-catalog contents that represent the database, all row orders the server may choose",
"Row order, dropped columns, other schemas and object identifiers are chosen by the server; integration tests see one server state.",
["pysqlsync/dialect/postgresql/discovery.py:PostgreSQLExplorer","pysqlsync/base.py:BaseContext.synchronize"])
p("C54","The text of each statement says exactly what was meant",
"The script produced for creating, mutating or dropping a catalog, read by the engine's rules for identifiers, literals, numbers and comments and by its statement grammar, is the same sequence of statements as was meant: same objects, columns, types, defaults, constraints, comments and rows, in the same order. No name, label, comment, value, default or condition can end a statement early, start another one or change the meaning of a neighbour.",
"all catalogs, all names and texts, all scripts of any number of statements, and the seven dialects",
"Names and texts are arbitrary strings and scripts have any length; a test compares a few expected strings.",
[f"{O}:Table.create_stmt",f"{O}:Column.column_spec",f"{O}:Constraint","pysqlsync/formation/mutation.py:Mutator.mutate_catalog_stmt","pysqlsync/dialect/mssql/object_types.py:MSSQLTable","pysqlsync/dialect/oracle/object_types.py:OracleColumn","pysqlsync/dialect/mysql/object_types.py:MySQLColumn"])
p("C55","Columns of truth values, numbers, dates, times and identifiers keep every value",
"A field declared as bool, float, Decimal, datetime, date, time, timedelta, UUID, JSON or an IP address becomes a column of a type that the engine has and in which every value of the Python type is stored unaltered (full microseconds, all digits, all bytes). A Decimal declared with a precision and scale keeps every number of that form, and a datetime or time declared with a precision keeps every value of that precision.",
"all classes, fields, options, engines (PostgreSQL, MySQL, SQL Server, Oracle) and all values of the Python type",
"Value domains are unbounded or huge; a test inserts a few values, and servers round silently.",
["pysqlsync/formation/py_to_sql.py:DataclassConverter.simple_type_to_sql_data_type","pysqlsync/model/data_types.py:SqlTimestampType","pysqlsync/model/data_types.py:SqlDecimalType","pysqlsync/dialect/mysql/generator.py:MySQLGenerator","pysqlsync/dialect/mssql/generator.py:MSSQLGenerator","pysqlsync/dialect/oracle/generator.py:OracleGenerator"])
p("C56","Parameters of data statements land in their columns",
"The text of the INSERT, insert-or-ignore, upsert and DELETE statement of a table, read by the engine's and the driver's rules, names that table and those columns, whatever characters they contain; parameter n is the value of the n-th requested column (generated columns excepted on insertion), rows are compared on exactly the identifying columns, and exactly the other columns are overwritten. The driver asks for exactly as many values as there are columns.",
"all tables, requested column orders, names and the seven dialects",
"Names are arbitrary strings and column lists have any length and order.",
[f"{B}:BaseGenerator.get_table_insert_stmt",f"{B}:BaseGenerator.get_table_merge_stmt",f"{B}:BaseGenerator.get_table_upsert_stmt",f"{B}:BaseGenerator.get_table_delete_stmt","pysqlsync/dialect/postgresql/generator.py:PostgreSQLGenerator","pysqlsync/dialect/mysql/generator.py:MySQLGenerator"])
p("C57","Discovery reads back what was created (MySQL, SQL Server)",
"On MySQL and SQL Server, for every set of tables whose data types, defaults, comments and constraints the server reports as they were written: once they exist, the discovery queries over the information schema (and sys.columns) return an object model that compares equal to the one that was created (on SQL Server, which is given no comments, without the descriptions), whatever the order of rows and whatever else is on the server; on MySQL the tables of each namespace are told apart by the prefixes of their names. So a second synchronization with the same classes executes nothing: on SQL Server and Oracle no statement depends on a description. has_table and has_column tell exactly what exists.",
"all catalogs of the supported vocabulary, all contents of the information schema that represent the database, all row orders the server may choose, all sets of modules",
"Row order, other schemas and other tables are chosen by the server; integration tests see one server state.",
["pysqlsync/formation/discovery.py:AnsiExplorer","pysqlsync/dialect/mysql/discovery.py:MySQLExplorer","pysqlsync/dialect/mssql/discovery.py:MSSQLExplorer","pysqlsync/base.py:BaseContext.synchronize"])
p("C58","Discovery reads back what was created (Oracle)",
"On Oracle, for every set of tables of one user whose names no other user uses, whose data types and defaults the server reports as they were written, with foreign keys of one column: once they exist, the discovery queries over the data dictionary return an object model that compares equal to the one that was created without its descriptions (Oracle is given no comments), whatever the order of rows and whatever else is on the server outside the namespaces asked for; the tables of each namespace are told apart by the prefixes of their names. So a second synchronization with the same classes executes nothing.",
"all catalogs of the supported vocabulary, all contents of the data dictionary that represent the database, all row orders the server may choose, all sets of modules",
"Row order, other users and other tables are chosen by the server; integration tests see one server state.",
["pysqlsync/dialect/oracle/discovery.py:OracleExplorer","pysqlsync/base.py:BaseContext.synchronize"])
p("C59","The catalog of a set of classes can be created in the database, and dropped again",
"For every set of data-classes that is complete and ordinary (as in C35; keys are not optional, collections that become tables are not declared unique, PostgreSQL enumerations are not extended by strings and collections do not refer to types of another module): the object model that the converter makes from them is such that the script that creates it succeeds statement by statement on every database in which the names are free, every type and table is there before it is referred to, afterwards the database has exactly what it had before and the objects of the classes, and the script that drops it restores the database.",
"all sets of classes, fields, annotations, options, modules, dialects, and all databases in which the names are free",
"Classes, fields and their references are arbitrary; a test creates a few examples, and a wrong order or a missing column only shows with other classes.",
["pysqlsync/formation/py_to_sql.py:DataclassConverter.dataclasses_to_catalog",f"{O}:Catalog.create_stmt",f"{O}:Catalog.drop_stmt",f"{B}:BaseContext.create_objects"])
p("C60","Dropping a schema removes its objects, and nothing else",
"drop_schema(namespace) leaves the database without the objects of the schema (on MySQL and Oracle: without the tables whose names begin with the namespace and two underscores) and otherwise as it was, whatever else is in the database, however the tables of the schema refer to each other, and in whatever order the server lists tables and constraints, provided that nothing outside refers to the schema (on Oracle foreign keys from outside are dropped). A catalog that has been created in a free namespace and is then dropped with drop_schema leaves the database as it was. The commands sent name exactly these objects, whatever characters their names have.",
"all databases, all names, all answers (orders) of the server; PostgreSQL, SQL Server, MySQL, Oracle",
"The contents of the database, the reference graph and the order of the answers are arbitrary; a test sees one server state.",
[f"{B}:BaseContext.drop_schema",f"{B}:BaseContext.drop_table_if_exists","pysqlsync/dialect/mssql/connection.py:MSSQLContext.drop_schema","pysqlsync/dialect/mysql/connection.py:MySQLContext.drop_schema","pysqlsync/dialect/oracle/connection.py:OracleContext.drop_schema","pysqlsync/dialect/postgresql/object_types.py:PostgreSQLNamespace"])
p("C61","The creation script of a set of classes is text that the engine reads as meant",
"For a set of data classes and enumerations, the script that is generated to create all of their objects is, as text, accepted by the engine's lexical and grammatical rules as one command per generated statement, and each command says what is meant: the same names, types, defaults, checks, labels and references, whatever characters the names, labels, defaults and descriptions have (MySQL: no backslash). Run on a database that does not use the names, it creates exactly the objects of the catalog. The same holds of the script that drops them, which is read as meant.",
"all sets of classes (any number, any references, any text in labels, defaults and descriptions), all options, all dialects",
"Text is assembled from many places (type names, check conditions of enumerations, automatic defaults, value rows, descriptions); a test compares the script of a few classes with a literal.",
["pysqlsync/formation/py_to_sql.py:DataclassConverter.dataclasses_to_catalog","pysqlsync/formation/py_to_sql.py:DataclassConverter.member_to_column","pysqlsync/formation/object_types.py:Catalog.create_stmt","pysqlsync/model/data_types.py:constant"])
p("C62","Adding classes adds objects and changes nothing else",
"If classes or modules are added to a set of classes that stay as they are, the statements generated to bring the database from the catalog of the former to the catalog of all classes succeed and leave the database with the objects of all classes, as if they had been created together; every schema, type and table that existed before, known to the generator or not, is exactly as it was. The statements only create and fill new objects, they are generated whenever all classes could be created at once, and, unless an existing namespace or a new one refers to a new object of another existing namespace, the schema is consistent after every one of them. Between the catalogs of any two sets of classes, the script that is generated is text that the engine reads as meant, statement by statement.",
"all pairs of sets of classes, all databases that have the objects of the first and do not use the added names, all mutation options, all dialects",
"The tables of a class depend on other classes (relations, enumerations, join tables, name collisions), so that adding a class may change the objects of another; a test adds one class to one model.",
["pysqlsync/formation/py_to_sql.py:DataclassConverter.dataclasses_to_catalog","pysqlsync/formation/mutation.py:Mutator.mutate_catalog_stmt",f"{B}:BaseGenerator.get_mutate_stmt"])
p("C63","Rows copied to Redshift arrive as they were",
"The stream that insert_data and insert_rows copy to Redshift is read by the engine as the records, in order, each value in its column: text as it is, numbers, truth values and binary data as literals of their value, None as NULL; and it does not matter how the records are divided into batches.",
"all sequences of records, all divisions into batches",
"Text is arbitrary and may contain what separates columns and rows; a test inserts a few rows of harmless text.",
["pysqlsync/dialect/redshift/connection.py:RedshiftContext._insert_copy_stream","pysqlsync/dialect/redshift/connection.py:RedshiftContext.insert_data","pysqlsync/dialect/redshift/generator.py:RedshiftGenerator.get_value_transformer"])
p("C64","Parameters are declared with the types of their columns",
"When records are inserted, upserted or deleted on SQL Server or Oracle, the driver is told the type of every parameter in advance. For every table and every choice and order of fields: there is one declared type for each parameter of the statement that the server reads, and the parameter that gives the value of a column is declared with the type of that very column. The declared type carries every value that the column can hold: every integer in the range of the column, every text and byte string within the limit, every decimal number within precision and scale, every time.",
"all tables, all choices and orders of fields, all column types, limits, precisions and values",
"The alignment depends on which columns the statement lists; widths are compared with limits at boundaries that only certain values reach.",
["pysqlsync/dialect/mssql/connection.py:MSSQLContext._execute_typed","pysqlsync/dialect/mssql/data_types.py:sql_to_odbc_type","pysqlsync/dialect/oracle/connection.py:OracleContext._execute_typed","pysqlsync/dialect/oracle/data_types.py:sql_to_oracle_type",f"{B}:BaseContext._insert_rows",f"{B}:BaseContext._upsert_rows",f"{B}:BaseContext._delete_rows"])
p("C65","Objects are stored field by field in the columns of their names",
"insert_data with a sequence of objects of a data class stores one row per object, in the order given, in the table of the class: every column whose value is not generated by the database receives the value of the field of the same name in the form that the column holds (labels for enumeration members, 16 bytes for UUIDs and packed bytes for addresses where columns are binary), and no other column receives a value. upsert_data does the same with every column, also generated keys. delete_data deletes the rows whose primary key is one of the keys given.",
"all data classes, all dialects, all sequences of objects, all values of fields",
"The statement, the extractors and the table each enumerate fields on their own and have to agree for every combination of field types and annotations; a test inserts objects of a few classes.",
[f"{B}:BaseContext.insert_data",f"{B}:BaseContext.upsert_data",f"{B}:BaseContext.delete_data",f"{B}:BaseGenerator.get_dataclass_as_record",f"{B}:BaseGenerator.get_field_extractor","pysqlsync/dialect/postgresql/connection.py:PostgreSQLContext.insert_data"])
p("C66","Classes derived from classes have the expected tables",
"make_entity(cls, key) makes a class whose table has exactly the given field as its primary key and otherwise the same columns as the fields of cls, whatever they are; a name that is no field is refused. flatten_dataclass with make_dataclass makes a class whose table has one column for every plain field and, for every field of a structure type, one column for each field of the structure, named by both; each column has the nullability, default and description of the field that it stands for.",
"all data classes, all keys, all conversion options",
"Types, defaults, documentation, name collisions and the order of required and optional fields interact in every combination; the tests derive one class each.",
["pysqlsync/model/entity_types.py:make_entity","pysqlsync/model/entity_types.py:key_value_fields","pysqlsync/util/dataclasses.py:flatten_dataclass","pysqlsync/util/dataclasses.py:make_dataclass"])
p("C67","Python source of classes is read by Python as these classes",
"The code that module_to_code (enum_class_to_code, dataclass_to_code) writes for the enumerations and data-classes of a module is Python source that, when run, makes the same classes in the same order: names, bases, decorators, descriptions (also of members), members and their values, class variables, fields with their types and defaults, whatever quotation marks, backslashes, line feeds and control characters texts contain; every name that the code uses is defined. A module with a class of another kind is refused.",
"all modules of enumerations and data-classes, all texts, numbers and other values as members, defaults, class variables and descriptions",
"Quoting depends on every combination of characters in the texts, and the code must be parsed as a whole; the tests compare the output for two classes with simple texts.",
["pysqlsync/python_types.py:module_to_code","pysqlsync/python_types.py:dataclass_to_code","pysqlsync/python_types.py:enum_class_to_code"])
p("C68","Host, port, credentials and database reach the server as they were given",
"For SQL Server and Oracle, whose drivers take host, port or database as one text, the driver reads from the text that open() composes exactly the host, port, user name, password and database of the connection parameters (defaults where none was given), whatever characters they contain, and no other setting can be changed through them.",
"all connection parameters: all texts as host name, user name, password and database, all ports, any of these missing",
"It depends on every combination of characters in five texts and on what is missing; the tests use one set of parameters without special characters.",
["pysqlsync/dialect/mssql/connection.py:MSSQLConnection.open","pysqlsync/dialect/oracle/connection.py:OracleConnection.open"])
p("C69","Blocking driver calls of a task never overlap",
"Whatever the schedule of threads and event loop and whatever tasks are cancelled at whatever moment, the driver calls that a task makes through thread_dispatch happen one after the other; each caller gets the outcome of its own call and no other; while the task runs code of its own, also the code that closes a connection after a cancellation, no thread is still at work on one of its calls; other tasks go on meanwhile.",
"all schedules, all points of cancellation, all numbers of tasks and calls, all outcomes of calls",
"A race between a cancellation and a thread shows only in rare schedules.",
["pysqlsync/util/dispatch.py:thread_dispatch"])
os.makedirs("/verif",exist_ok=True)
with open("/verif/properties.jsonl","w") as f:
    for x in P: f.write(json.dumps(x)+"\n")
print(len(P))
