# Formal model of pysqlsync — design

`/repo` is hunyadi/pysqlsync (Python). The model is written in Coq 8.16.1 under `rocq/theories/`
(logical name `Verif`). Properties are listed in `properties.jsonl`, theorem names in `MANIFEST.json`.

## Conventions

* Every definition of a *model* file cites `file:lines` in `/repo/pysqlsync` and names its simplifications.
* Python exceptions are values (`Err e` of a `res` type, or `None` where only "raises" matters).
* Python `str` is modelled by Coq `string` (a list of 8-bit characters). All characters the code treats
  specially are ASCII; a Python text is represented by its UTF-8 bytes, in which ASCII bytes never occur
  inside a multi-byte sequence, so replace/split/search on ASCII characters commute with the encoding.
  `len()` of non-ASCII text is the one operation that differs (noted where used).
* A Python `dict`/`ObjectDict` is an association list in insertion order with distinct keys.
* `Spec*.v` files hold independent specifications (SQL scanners, a LIKE matcher, an abstract database that
  executes DDL/DML); they are written from the SQL rules, not from the generator.
* `Props*.v` files contain only property theorems (`exact lemma`), non-vacuity `Example`s and
  `Print Assumptions`.
* `_partial`: the theorem proves part of the property. `_refuted`: the property as one would expect it is
  false of the faithful model; the theorem exhibits a witness (a finding about the code).

## What is modelled, where, and how it is proved

One line per property. "Model" files transcribe `/repo`; "Spec" files are independent of the generator; the theorems are in the `Props*.v`
file. Statuses and provisos are in `MANIFEST.json`; all `_refuted` theorems are findings about the code (witnesses computed by the model).

| id | model (code) | specification | proof |
|----|--------------|---------------|-------|
| C01–C07, C49, C50 | QuoteModel, Types (`quote`, ids, `sql_quoted_string`, `escape_like`, `split_composite_id`, `constant`, MSSQL `EXEC('CREATE SCHEMA …')`) | QuoteSpec: scanners for SQL literals and identifiers, LIKE matcher, row-value parser | induction on texts; nested induction on constants. C07: floats, decimals, datetimes are not modelled (their text comes from Python's runtime). C49/C50 `_partial` for texts without backslash / apostrophe; refuted in general |
| C08 | ObjectDict | ObjectDictSpec: finite map + duplicate-free key list | refinement, induction over histories |
| C09 | Objects (`merge`) | MergeSpec: equality of definitions, union | induction over the folded dict |
| C10 | Objects (`get_referenced_namespaces`), Objects (`topological_sort`, external, from its documentation) | SortSpec, TopoSpec | DFS invariant |
| C11, C12 | Ddl, SqlAst, Render (all dialects' create/drop/constraint statements) | DbSpec (abstract database that refuses dangling references, duplicates …), CatSpec, KeySpec, RefSpec | execution of the statement list, induction over objects |
| C13–C17, C19, C20 | Mutate (base and PostgreSQL, MySQL, SQL Server, Oracle mutators) | DbSpec, MutSpec, StmtSpec, DataSpec (rows) | TabProofs/NsProofs/CatProofs/RunProofs: step lemmas per statement, induction over object lists. C13/C20 partial: on Delta and Snowflake (general mutator; statements interpreted as the default engine does) without changed descriptions and respelled defaults (`tc_general`; refuted otherwise), intermediate inconsistency shown by refuted theorems |
| C18 | Mutate (migration of enumeration and text columns), StoreExec | DataSpec (INSERT … SELECT DISTINCT, UPDATE … FROM, DEFAULT, identity) | DataProofs1–9 |
| C21, C22 | Session (`BaseGenerator.create/drop/get_mutate_stmt`, `synchronize`) | SessionSpec: fault at any statement | state machine, histories |
| C23–C25, C48 | Dml (INSERT/MERGE/upsert/DELETE builders) | RowSpec, DmlSpec: row-level semantics | induction over batches and rows |
| C26 | Batch | BatchSpec | list induction |
| C27, C28 | Records (`_generate_records`, transformers, `_merge_lookup_table`; COPY on PostgreSQL and Redshift, `copy_stmt`) | RecordsSpec | alignment lemmas; history invariant of the lookup table |
| C29 | Compat (`compatible_type`) | CompatSpec: values a type holds | case analysis + fold invariants |
| C30 | Discover (type spelling, `SqlDiscovery`) | DiscoverSpec: what servers report (manuals) | print/parse lemmas for decimals |
| C31, C51 | Capacity, Convert | Capacity tables of the servers (manuals) | arithmetic |
| C32 | Factory (constraint factories, catalog queries) | FactorySpec | interleavings |
| C33 | Flat | FlatSpec | prefix lemmas + C05 |
| C34–C37, C52 | Convert, ConvertDialects (`py_to_sql.py` complete, all dialects' options) | ConvertSpec, CloseSpec, NamesSpec | induction over types (fuel), fields, classes |
| C38 | Reverse (`sql_to_py.py`) | ReverseSpec | composition with Convert |
| C39 | Exchange | ExchangeSpec | codec laws |
| C40 | ResultSet | ResultSetSpec | list induction |
| C41 | Tls | TlsSpec | case analysis over attempt outcomes |
| C42 | Url | UrlSpec | codec round trip |
| C43 | Registry | RegistrySpec | refinement |
| C44 | Split | SplitSpec | list lemmas |
| C45 | Generator (`data/generator.py` complete) | GeneratorSpec: values a declaration admits, satisfiable declarations | for every stream of random answers; induction over types; permutation lemma for `shuffle` |
| C53 | PgExplore (`dialect/postgresql/discovery.py` complete: the SQL queries as joins over lists of catalog rows) | PgCatSpec (rows that stand for a database, from the manual), ExploreSpec (what is reported faithfully) | join lemmas per query; sorting and grouping; composition with Session (C22) |
| C54 | Render (text of every statement, per dialect), Mutate, Ddl | SqlText (lexer and statement parser written from the manuals), TextSpec (agreement, provisos), CatTextSpec | lexing is compositional at delimiters (LexProofs); each statement kind reads back (TextProofs1–7); every statement the code produces from a catalog of the vocabulary meets the provisos (TextProofs8) |
| C55 | Convert, ConvertDialects, Types (spelling of types) | Storage: value domains of Python types and what a column keeps, by spelling (manuals) | the column type is computed per dialect; arithmetic on the domains |
| C56 | Dml (insert, insert-or-ignore, upsert, delete; text and placeholders) | DmlText (drivers' parameter syntax and the data statements, over SqlText's lexer), DmlTextSpec | each statement reads back (DmlTextProofs); columns and keys from DmlProofs; MySQL's driver formatting by induction on the text |
| C57 | IsExplore (`formation/discovery.py`, `dialect/mysql/discovery.py`, `dialect/mssql/discovery.py`: the SQL queries as joins over lists of view rows), Flat, Discover | IsCatSpec (rows of the information schema that stand for a database, from the manuals), IsSeenSpec (what is reported faithfully) | join lemmas per query; sorting and grouping; flat namespaces by C33; composition with Session (C22) |
| C46 | StmtList | — (statement is about the list itself) | list induction |
| C58 | OrExplore (`dialect/oracle/discovery.py`: the queries as joins over rows of the data dictionary), Flat, Discover | OrCatSpec (rows of `dba_*` views that stand for a database; what is reported faithfully) | as C57; one generic lemma for engines without schemas; HushProofs: statements do not depend on descriptions where no comments are given (also used by C57) |
| C59 | Convert, Ddl (as C34-C36, C11, C12) | CloseSpec, CreateSpec (`creatable`: provisos about the classes), CatSpec, RefSpec, DbSpec | the tables, types and names of a converted catalog satisfy `cat_wf` and `refs_closed` (CreateProofs1-4: columns of keys and constraints exist, names differ across kinds, types precede their uses), then C11 and C12; strong_typing's topological sort is a hypothesis |
| C60 | DropSchema (drop_schema of the base context and of SQL Server, MySQL, Oracle, as programs that ask and execute; the text of the commands; drop_table_if_exists) | DropSpec (answers of the server in any order, effects of DROP TABLE / DROP SCHEMA / CASCADE, LIKE with ESCAPE, reading of quoted names) | DropProofs1-4: LIKE of the escaped pattern = prefix; every command keeps `db_ok`; induction over the answered list with the set of tables still to drop; C11's `plus_cat` for create-then-drop |
| C61 | Convert, Ddl, Render (whole pipeline from classes to text) | WriteSpec (`writable`: which literals, defaults and structures can be written), TextSpec, CatTextSpec, CreateSpec, DbSpec | WriteProofs1-3: every type, column, constraint, row and label the converter produces meets `cat_text`; then C54 and C59 |
| C62 | Convert, Mutate | GrowSpec (`part_of`, `room`, `prefixed_alike`), MutSpec | GrowProofs1: mutating a catalog into one it is part of; GrowProofs2: tables, types and join tables have different names, and those of fewer classes are among those of more; GrowProofs3: the catalogs; then C13's outcome; GrowProofs4: every statement only adds, and generation succeeds; GrowProofs5: with `local_news`, references are met after every statement (as in C11) |
| C63 | Copy (`_insert_copy_stream`, `str` of values) | CopySpec (lines, columns, NULL of COPY with default options; what a value arrives as) | CopyProofs: separators are cut uniquely, induction over records. Partial: None, bytes, separators in text are lost (refuted) |
| C64 | Typed (`_execute_typed`, `sql_to_odbc_type`, `sql_to_oracle_type`) | TypedSpec (`declared`: parameter, column, type; which values a declared type carries, from the ODBC and python-oracledb manuals), Capacity, DmlText | C56 theorems give the statement as read; induction over columns; arithmetic. Partial: generated columns, fractions, decimals without precision (refuted) |
| C65 | ObjData (`insert_data`, `upsert_data`, `delete_data`, base.py 1003-1041; PostgreSQL override, postgresql/connection.py 105-122; extractors, base.py 457-508) | ObjDataSpec (`inserted`/`upserted`: table and rows that a command stores, via the reader of DmlTextSpec; `meant`: the value a column is to hold; `direct`) | C34 (columns of the converter) + C56 (statement as read) + induction over fields and objects. Partial: binary keys, optional enumerations, lookup tables, collections, reordered columns (refuted) |
| C66 | Entity (`make_entity`, `flatten_dataclass`, `make_dataclass`, and Python's rules for `dataclasses.make_dataclass`) | EntitySpec (`legal`, `keyed`, `struct_field`, `flat`), ConvertSpec (`columns_match`) | the class of a type is found exactly (`plain_class`); induction over fields; then C34. Partial: factories, optional structures, order of defaults, collisions (refuted) |
| C67 | PyCode (`python_types.py` complete, except that several-line descriptions are given as folded lines and types as text) | PyCodeSpec: a reader for the fragment of Python that is used (lines, names, constants, annotations, classes, imports), from the Language Reference; classes as they are after running | PyCodeProofs: quoting inverse character by character (all 256), annotation ends at the first `=` outside brackets; induction over members, fields, classes. Partial: defaults that are no constants, factories, metadata, empty classes, triple quotation marks and backslashes in several-line descriptions (refuted) |
| C68 | Connect (`open` of SQL Server and Oracle: connection string, connect descriptor) | ConnectSpec: readers for ODBC connection strings ([MS-ODBCSTR]: keywords, braces, first value counts) and Easy Connect | induction over the entries of the string. Partial: semicolons, leading braces, a port without host, IPv6 (refuted) |
| C69 | Dispatch (`thread_dispatch`: event loop, one pool with one thread for each call, cancellation, `shutdown(wait=True)`) as a transition system; tasks do anything between calls | DispatchSpec: the events of a task as rounds of begin, end, outcome | invariant over all reachable states. Partial: responsiveness (refuted) |
| C47 | Objects (`Table` predicates) | stated on columns and constraints | case analysis |

## Trusted base

**Kernel.** Coq 8.16.1's kernel, including `vm_compute` in witnesses and examples. No axiom is added and none is used: `Print Assumptions`
below each property theorem prints `Closed under the global context`. (Files that import std++ make `vcheck` list two `Coq.ssr.ssrunder`
items as library axioms; they come with the import of ssreflect, no theorem depends on them.)

**Reading of the code.** The model is a hand transcription of the Python source; every definition cites its lines. Python `str` is a byte
string (see above), integers are `Z`, `dict` an association list, exceptions are `Err`. Recursion that Python does not bound is bounded by
fuel in the model; running out of it stands for `RecursionError`, theorems hold for every fuel.

**Semantics of the outside world**, written from manuals, not verified:
* DbSpec/DataSpec/RowSpec/StoreExec: DDL and DML of the servers on an abstract database (names, columns, constraints, rows as finite lists;
  no concurrency, no triggers, no permissions; a failing statement changes nothing). Statements are executed as AST; Render gives their text,
  and C54 proves that the text is read back as these statements by the reader of SqlText.v (trusted: its lexical rules and grammar;
  double quotes delimit identifiers on every engine, i.e. ANSI_QUOTES on MySQL and the Delta driver's double-quoted identifiers; comments are refused).
  C56 adds DmlText.v (trusted: `$n`, `:n` name parameter n, `?` and `%s` number from the left; MERGE, ON CONFLICT and ON DUPLICATE KEY clauses;
  a missing final semicolon is allowed, as the Oracle connection strips it).
* QuoteSpec scanners; the LIKE matcher (C05); what information-schema views report (DiscoverSpec, FactorySpec, FlatSpec); capacities of types
  (Capacity; Oracle with w bytes per character, w arbitrary) and what they keep of a value (Storage: dates from year 1000, decimals of at most 28 digits).
* TlsSpec: what drivers do with the arguments they get; ResultSet: three kinds of driver rows; Exchange: laws of the external `tsv` package
  (an instance is proved to obey them).
* Session: discovery sees what it should (`sees`), stated as a hypothesis on the database in C22; for PostgreSQL this is proved in C53, for MySQL and SQL Server in C57, for Oracle in C58.
* PgExplore/PgCatSpec: system catalogs as lists of rows; joins, filters, `ORDER BY`, `UNNEST … WITH ORDINALITY` as list functions; a query
  without total order delivers its rows in an arbitrary order (parameter `order`); `format_type` and `pg_get_expr` are parameters (`show`, `deparse`).
* IsExplore/IsCatSpec: views of the information schema (and `sys.tables`, `sys.columns`) as lists of rows of one catalog; row order a parameter (`order`);
  how defaults are shown is a parameter (`deparse`); names compare byte by byte; each server reads the literals in the queries in its own way (QuoteSpec).
* OrExplore/OrCatSpec: the `dba_*` views as lists of rows; the conditions on status, temporary, secondary, dropped and read_only are one flag; all tables of the
  database belong to one user; other users may have tables of other names.
* DropSpec: what the servers answer to the queries of drop_schema (any order, each row once; Oracle's views also show tables of other users, parameter `others`)
  and what DROP TABLE / DROP SCHEMA do (SQL Server drops one table of a list after the other, MySQL looks at foreign keys of other tables only, CASCADE drops dependent
  keys, columns and members); each command must leave a consistent database (`db_ok`) or it fails.
* Records: `fresh_keys` (the server generates unused integer keys), labels compare exactly, iteration order of sets is an arbitrary parameter.
* Convert: functions of the external `strong_typing` package are modelled from their documentation (`unwrap_*`, `is_type_*`,
  `topological_sort`, `get_referenced_types`); object identity (`is`) of annotated types and iteration order of class sets are parameters,
  i.e. theorems hold for every answer. Completeness of `get_referenced_types` is a hypothesis (`complete` in CloseSpec).
* Reverse: `str.isidentifier` and the resolution of printed class names are parameters.
* Generator: the random source is an arbitrary stream `src` of naturals, the clock an arbitrary function `now`; `object_to_json` is opaque
  (`GvJson`).

**Not modelled**: network and driver code (except C41, C68), asynchronous scheduling beyond C69 (all coroutines of the library await one statement after the
other), logging, the command line, Trino mutation, engine peculiarities of Delta and Snowflake beyond their lexing, the explorers' SQL beyond the queries of C30, C32, C33 and the PostgreSQL, MySQL, SQL Server and Oracle explorers (C53, C57, C58),
`Formation` helpers that only format text (doc-strings), `textwrap` and strong_typing's `TypeFormatter` (C67), performance.
