# Formal model of sqddl: design

The code under study is `bokwoon95/sqddl`, pinned in `/repo` (Go). It was read as text and
never built or run. Everything here is a model of that text in Rocq (Coq 8.16.1) together with
theorems about the model. `properties.jsonl` lists the properties in user-level terms,
`MANIFEST.json` says which theorem settles which property, `seeded/LOG.jsonl` records the
mutation tests of the theorems.

## Trusted base

* The Coq 8.16.1 kernel (and `vm_compute`, which is used in concrete examples and witnesses).
* Every property theorem is followed by `Print Assumptions`; the target is
  `Closed under the global context` for all of them. Any exception is listed in the section
  "Assumptions" below.
* The faithfulness of the model: each definition cites the Go file and line range it models.
  Section "What is modelled" says which parts are covered, section "Simplifications" says how
  the model deviates.
* The specifications of things outside the repository (SQL lexers, transactions, Go's
  `encoding/csv`, `sha256`), which are written down as small independent definitions or taken
  as arguments (oracles) of the model.

## Conventions

* Go strings are byte strings: `bytes := list ascii`. `B"..."` builds one from a literal.
* Go `int` is `Z`, or `nat` for lengths and positions, except where overflow is the subject.
* An error return is a value (`result`: `Ok`, `Err`, `Panic`). A Go run-time panic (index out
  of range, nil dereference, division by zero) is the explicit value `Panic`, never a default.
* A loop is structural recursion or recursion on fuel; exhausted fuel is a distinct value and
  the theorems show that it does not occur.
* External calls (database, file system, hash, random numbers) are function arguments.
* `Model*.v` files contain definitions only; `*Facts.v` files contain proofs; `Prop*.v` files
  contain only the property theorems, each closed by `exact`, with `Print Assumptions` beneath,
  and the examples that show the hypotheses can be met.
* Theorem suffixes: `_refuted` means that the property as stated in `properties.jsonl` is false
  of the code and the theorem exhibits a witness. `_partial` means that a restricted version is
  proved; the note in `MANIFEST.json` says what is missing.

## Plan per property

| Property | What is modelled | How it is proved |
|---|---|---|
| C01 | `QuoteIdentifier`, `EscapeQuote` byte by byte; independent lexer of quoted identifiers | induction over the string: the lexer consumes the whole output |
| C02 | same, decoder of identifiers | refuted by a doubled quote; proved for names without adjacent quotes |
| C03 | string case of `Sprint`; evaluator of literals and concatenations | induction over the string; MySQL refuted because of backslash escapes, proved for backslash-free strings |
| C04 | other cases of `Sprint` | decimal and hexadecimal round trips |
| C05 | `Sprintf` scanner as a state machine | relation with a tokenizer spec |
| C06 | same with explicit `Panic` | refuted for SQLite; proved for the other dialects |
| C07, C08 | `GenerateName` | arithmetic on lengths; collision witnesses |
| C09 | `splitArgs` | invariant of the scanner |
| C10, C11 | `normalizeColumnType`, `normalizeColumnDefault` | witness for the panic; totality under balanced brackets |
| C12 | `VersionNums` methods | induction over lists |
| C13 | modifier parser and printer | round trip by induction over the modifier tree |
| C14 | `sortAndFilterFilenames` | filter/partition laws |
| C15-C20, C29 | `MigrateCmd.Run`, `runWithRetry`, `run`, `undo` as a function from an oracle of outcomes to a trace of database operations; crash = any prefix of the trace; a small transactional database interprets the trace | induction over batches and over the trace |
| C21, C22 | retry loop with delays | induction over attempts; witnesses for the panics |
| C23 | undo decision | refuted for single-statement scripts, proved for the others |
| C24-C28 | `touch`, `rm`, `mv`, `ls` over the same history table | algebra of history updates |
| C30 | two copies of the migrate state machine with interleaving | refuted by a schedule |
| C31-C33 | `BatchInsert.ExecContext` | induction over the row list; table semantics for upserts |
| C34 | `CatalogCache` | invariant over operation sequences |
| C35-C40, C42 | the four `new*Migration` functions and the statement order of `sql()` | induction over catalogs, set-level specification |
| C41 | file numbering | byte order of `%02d`, refuted from 100 files on |
| C43 | decision logic of `GenerateCmd.Run` and `AutomigrateCmd.Run` | case analysis |
| C44, C45 | field encoding of `dumpCSV`/`loadCSV`, file naming | round trips and witnesses |
| C46 | `setSessionValue` | state machine |
| C47, C48 | foreign key traversal of `subset`, relational semantics of join paths | invariant of the traversal; refuted by a diamond and by a self reference |
| C49 | brace scanner of `subset` | witnesses for the panics |
| C50 | statement list of `WipeCmd.Run` | list algebra |
| C51 | `normalizeColumnType` against a table of synonyms of each dialect | enumeration of synonyms, refuted by words that are cut off |
| C52 | `normalizeFilename` | case analysis of prefixes |
| C53-C55 | the trace of `migrate` | invariants of the trace, second run on the resulting history |
| C56, C57 | identity and sequence statements of `BatchInsert` | list algebra, witnesses for the error paths |
| C58-C60 | `touch` and `ls` | as C24-C28 |
| C61 | `popValue` | scanner invariant against a relational grammar of braces |
| C62, C63 | `CatalogCache`, `Catalog.WriteCatalog` | invariant that the maps find exactly the listed objects |
| C39, C64, C65 | effect of statements on a small database (`SpecApply.v`, for SQLite `SpecLite.v`); file names read by `migrate` | stages of the migration, each with an invariant that relates the database to both catalogs; for SQLite one block of statements per table |
| C66, C67 | `automigrate`, `generate` | case analysis over outcomes of the file system |
| C68, C69 | names of CSV files, errors while dumping | string lemmas, trace of writes |
| C70 | text of session statements | round trip through a lexer of values |
| C71 | listing scripts of `wipe` as filters | list algebra |
| C72 | `Subsetter` | every row of the result is the end of a chain of references |
| C73, C74 | text of the subset queries | lexing and parsing the text gives the syntax tree, whose meaning is the set of rows of C47/C72 |
| C75 | text of the statements of migrations | lexing and parsing each file gives its statements |
| C76-C78 | `StructParser` | invariant that the cache finds exactly the objects of the table, and that foreign keys have references |
| C79 | `TableStructs.ReadCatalog`, `MarshalText`, `VisitStruct` | round trip through a lexer and parser of Go declarations (`SpecGo.v`) |
| C80 | `TableStructs.ReadCatalog`, `StructParser.WriteCatalog` | every field that is written is read as one step on the catalog; the steps of a table give its columns, keys and indexes (`ReadKeys.v` to `ReadSame.v`), against the relation `same_catalog` of `SpecSame.v` |
| C81 | `parseArray` and its callers, JSON of arrays | invariant of the counters per dimension; reading the output syntax of Postgres (`SpecArray.v`), round trip through a reader of JSON |
| C82 | `dumpSchema`, `dumpIndexes`, `dumpConstraints` | the files are read as statements (`LoadTexts.v`, comments included); running them keeps the state described by the operations done so far (`LoadRun.v`), against the semantics of `SpecLoad.v` that refuses what databases refuse |
| C83 | `LoadCmd.Run`, `loadZip`, `loadTgz`, `loadDir` | `SpecLoadFiles.v` states the documented order on the elements of the names; the code's comparisons of names are shown to mean the same for usual names |
| C84 | `dumpZip`, `dumpTgz`, `dumpDir` with the loaders of C83 | the names that dump gives are usual names; the directory is written file by file |
| C85 | the goroutines of `loadDir` and `loadZip`, `loadTgz`, the calls of `loadCSV` | a state machine with one transaction per connection; what a second BEGIN does is a parameter; the session settings are left out |
| C86 | `WriteCatalog`, `GetTables`, `GetConstraints`, `GetIndexes` and their scripts | a database is a list of schemas with tables; columns are given as `GetColumns` returns them; views, triggers, comments and stored texts are left out |
| C87 | the defaults in `GetColumns`, `isLiteral`, the functions for brackets | defaults are token lists or (MySQL) values; how databases report them is part of the specification; `ParseFloat` is an oracle |
| C88 | the types in `GetColumns`, `normalizeColumnType`, `writeColumnDefinition` | how Postgres (`format_type`) and SQL Server describe and read types is part of the specification; interval fields, alias types of SQL Server and the lengths kept beside the type are left out |
| C89 | `GetVersionNums` | the text that the server reports is given; numbers below 2^63 |
| C90 | `mklist`, the lines of the filter in the scripts that list the tables | the rest of the queries is fixed; names are compared as they are written, not with the collation of the database; the other scripts repeat the lines |
| C91 | `NormalizeDSN`, `PreprocessDSN` of the five drivers | `net/url` is modelled as far as it is used; the drivers read the names as `SpecDsn.v` says (for MySQL the last slash, the last at sign and the first colon; for the others the text before the question mark is not taken apart); the opening of the file gives one of three outcomes |
| C92 | `newSQLiteMigration`, `sqliteMigration.sql`, `copyTable` (model of C36) | `SpecRebuild.v` says what SQLite does: DROP TABLE deletes the rows first if foreign keys are checked, with the actions of all foreign keys; values are not converted; names are compared as they are written; the environment may refuse any statement; triggers are not modelled |
| C93 | `GetTriggers`, the triggers of `WriteCatalog` and of `copyTable` for SQLite | the statements are those of the model of C36 with the texts of the triggers (`C93_same_statements`); the parser of SQLite is given by the environment; rows without a text are not modelled |
| C94 | `AnnotateError` of the lib/pq and SQL Server drivers | of `fmt.Errorf` formats with one argument, without stars, brackets and non-ASCII verbs; what a driver reports is an input; the command itself is linked with the pgx driver, which has no `AnnotateError` |
| C95, C96 | `main` and the flags of all subcommands, with the parser of Go's `flag` package | what a subcommand does with its flags (the function that makes the command, and `Run`) and the numbers that `strconv.ParseInt` takes are parameters; with the options made of the flags once more in `PropFlags.v` (`ModelFlags.v`), and the two models shown to agree (`C96_models`) |
| C97 | `ViewStructs.ReadCatalog`, `MarshalText`; `getFieldType`, `needsQuoting` | the views are given; upper-casing is that of ASCII; Go is the part of it in `SpecGo.v` |
| C98, C99 | `TablesCmd.Run` and `ViewsCmd.Run` after the catalog is read; `filepath.Clean`, `Dir`, `Base` on Unix | `go/format` is a parameter; making directories and writing succeed |
| C100 | `writeCatalog`, `writeCatalogFromZip`, `writeCatalogFromTgz`, `isDir`; `-src`, `-dest`, `-db` in `GenerateCommand` | reading databases, Go, JSON and archives are parameters; the dialect and current schema handed to the destination are left out |
| C101 | `WriteCatalog` of `DatabaseIntrospector` on a catalog that has tables, in sequence | as C86; views, enums, routines are left out |
| C102 | `WriteCatalog`, `GetExtensions`, `GetEnums`, `GetDomains`, `GetRoutines` of `DatabaseIntrospector` and their scripts | the rows of a query come in the order of the database; Postgres 11 to 16 |
| C103 | `DumpCmd.Run` for Postgres: `WriteCatalog` for extensions, enums and domains, then `dumpSchema` with them, `dumpIndexes`, `dumpConstraints` | C82 and C102; what Postgres does with `CREATE EXTENSION`, `CREATE TYPE`, `CREATE DOMAIN` (`SpecTypedLoad.v`); whether a type is one of the system's is a parameter |
| C104 to C106 | `Catalog.WriteCatalog`, `cloneSlice`, `cloneMap`, `NewCatalogCache`, `GetOrCreate...` | a heap of cells for slices and maps; the copy only refers to cells that were allocated by it (C104); induction over the objects with the places that are taken in the cache (C105) or were entered by `NewCatalogCache` (C106) |
| C107 | `GetViews`, `*_views.sql`, `WriteCatalog`, `AddOrUpdateView` | what is read for a single view (names joined and split, `to_regclass`), then induction over the rows with the places in the cache; soundness and the losses for all databases |
| C108 | `GetTriggers`, `*_triggers.sql`, `WriteCatalog`, `AddOrUpdateTrigger`, `AddOrUpdateViewTrigger` | attaching rows one by one is filling every table and view with the rows that have its name (induction over rows), then the rows of an owner are found by its name; soundness and the losses for all databases |
| C109 | json `Encoder.Encode`, `Decoder.Decode` on `Catalog`; `writeCatalog` | reading is the inverse of writing: character by character for strings (over code points), then over trees with fuel bounded by the length of the text, then storing by induction over values |
| C110 | json `Decoder.Decode` into a catalog that is not empty | storing over an old value is an overlay, given separately by recursion; tables found through the overlay of the field Schemas; witness for mixed tables |
| C111 | queries of `DumpCmd.Run` for the data, first line of `dumpCSV` | the texts are read by a separate reader for SELECT and answered from any state; witness with generated columns only |
| C112 | order of the queries of `dumpZip`, `dumpTgz`, `dumpDir` | queries and transactions of others as a list of events; the dump compared with every state; witness where a customer and their order are added in between |
| C113 | `load_field` of C68 with `stamp_text`, `dump_field` with `format_time` | the calendar in `SpecStamp.v`: months, leap years by divisibility, the next day, days numbered one by one from 1970-01-01; texts as a grammar; parser shown equal to the grammar, day formulas equal to the count |
| C114 | json `Decoder.Decode` on `Catalog`; `writeCatalog` | RFC 8259 as a grammar in `SpecJsonText.v`, for strings over code points; `describes` says when a tree describes a value; the reader returns the tree of every document, and storing a tree that describes a value gives the value, by induction over trees (fields already stored have their values, the others are empty) |
| C115 | `FlagSet.Parse`, all `*Command` constructors | `line`: a grammar of command lines; `worth`: what an option is worth given its default and values; `documented`: a table by option name; parser shown equal to the grammar. REFUTED for `touch` without `-dir` |
| C116 | `loadCSV`: record numbers in errors, with the loop of `BatchInsert.ExecContext` | `judges_records`: a database that refuses an INSERT exactly if it refuses one of its records; `bad_record`. REFUTED for statements smaller than `-batchsize`; proved if their size divides it |
| C117 | `sqliteMigration.sql`, `copyTable` | `SpecCounters.v`: the statements run on rows (as in C92) together with the counters of `sqlite_sequence`. REFUTED for rebuilt tables whose newest row was deleted |
| C118 | `WriteCatalog`, `WipeCmd.Run`, the conditions on versions in `introspection_scripts/*.sql` | `SpecServers.v`: which version of which product has which system relation, column or function (trusted: from the release notes). REFUTED for Postgres before 12, MySQL 8.0.0 to 8.0.15, SQLite before 3.33 and others; `wipe` needs SQLite 3.37 |
| C119 | `GetColumns`, `mysql_columns.sql`, `postgres_columns.sql`, `sqlserver_columns.sql`, `writeColumnDefinition` | `SpecFilling.v`: how the products show AUTO_INCREMENT, identities, ON UPDATE and expressions in their system tables (trusted: from their documentation), and which of these a definition of a column has, read by the grammar of `SpecDdl.v`. REFUTED for ON UPDATE (MySQL 5.7, MariaDB, without default, with digits), identities of Postgres with options, brackets around expressions, NOT NULL computed columns of MySQL |
| C120 | `Subsetter.Subset` (reading of keys), `Timestamp.Scan` | `SpecTimeKey.v`: the instant that a text shows, with nanoseconds, by the calendar of `SpecStamp.v`; the instant a literal names; that no row is missing |
| C121 | `parseIndexModifier` … `parseColumnModifiers` (locations), `Diagnostics`, `Analyzer` | `SpecMistakes.v`: the grammar of tags as a table of parts, what is wrong in a tag and the path to it as an inductive relation, the line to be shown |
| C122 | `DatabaseIntrospector.WriteCatalog` (sequence of queries), `GetVersion`, `GetDatabaseName`, `GetCurrentSchema`, `GetDefaultCollation`, `closeRows` | `SpecReading.v`: which questions belong to a catalog, when a question is answered, what was said |
| C123 | the prefix by time and the writing of files in `GenerateCmd.Run` and `Results` | `SpecPrefix.v`: calls one by one, all that was generated in the order in which it was |
| C124 | `parseBytea`, `encodeBytea`, `ByteaArray.Value`, `ByteaArray.scanBytes` | `SpecBytea.v`: the hex and the escape texts of a binary value; `SpecArray.v`: arrays |

## Assumptions

All property theorems are `Closed under the global context`; see the output of the
`Print Assumptions` commands in `Prop*.v`. The check of the whole development lists seven
constants `Coq.ssr.ssrunder.Under_rel.*`. They belong to a sealed module of the Coq standard
library that is loaded along with `Zify`; no theorem here depends on them. No axiom of any
library is used.

## What is modelled

| Model file | Code |
|---|---|
| `ModelSq.v` | `ddl/sq.go`: `QuoteIdentifier`, `EscapeQuote`, `Sprint`, `Sprintf` |
| `ModelDdl.v` | `ddl.go`: `GenerateName`, `splitArgs`, `normalizeColumnType`, `normalizeColumnDefault`, `VersionNums`, file name handling |
| `ModelModifier.v` | `modifier.go` |
| `ModelMigrate.v`, `ModelHistory.v` | `migrate_cmd.go` and the history table |
| `ModelCommands.v` | `touch_cmd.go`, `rm_cmd.go`, `mv_cmd.go`, `ls_cmd.go` |
| `ModelBatch.v` | `batch_insert.go` |
| `ModelCatalog.v`, `ModelCache.v` | the catalog structs and `catalog_cache.go` for schemas, tables, columns, constraints and indexes |
| `ModelDiff.v`, `ModelDiffSql.v` | `sqlite_migration.go`, `mysql_migration.go`, `postgres_migration.go`, `sqlserver_migration.go`, and `Results` of `generate_cmd.go` |
| `ModelDdlText.v` | the functions of `dump_cmd.go` that write DDL, and the texts of the four migrations |
| `ModelGenerate.v` | `generate_cmd.go`, `automigrate_cmd.go` |
| `ModelCsv.v` | CSV parts of `dump_cmd.go` and `load_cmd.go` |
| `ModelSession.v` | `setSessionValue` and the session set-up of `load_cmd.go` and `migrate_cmd.go` |
| `ModelWipe.v` | `wipe_cmd.go` and the queries it lists objects with |
| `ModelSubset.v`, `ModelSubsetText.v` | `subsetter.go` |
| `ModelGoTag.v` | Go string literals and struct tags as `strconv` and `reflect` read them |
| `ModelStructs.v`, `ModelParser.v` | `table_structs.go`, `struct_parser.go` |
| `ModelArray.v` | `internal/pqarray`: arrays of booleans, integers and strings |
| `ModelDump.v` | `ddl/dump_cmd.go`: the files schema.sql, indexes.sql and constraints.sql |
| `ModelLoadFiles.v` | `ddl/load_cmd.go`: which files are run in which order; `ddl/dump_cmd.go`: the names of the files written. Running a script or loading a CSV file is an oracle, archives are lists of entries |
| `ModelParallel.v` | `ddl/load_cmd.go`: the goroutines and transactions with which CSV files are loaded, as a state machine over any interleaving; a connection has one transaction, and what the driver does on a second BEGIN is a parameter |
| `ModelIntrospect.v` | `ddl/database_introspector.go` and `introspection_scripts`: tables, columns, constraints and indexes of a live database; the catalog tables of the database are represented by the objects they describe, and a script by the rows it returns |
| `ModelReadDefault.v` | `ddl/database_introspector.go`: the defaults that `GetColumns` reads |
| `ModelReadType.v` | `ddl/database_introspector.go`: the types that `GetColumns` reads; `ddl/dump_cmd.go`: how they are written |
| `ModelVersion.v` | `ddl/database_introspector.go`: `GetVersionNums` |
| `ModelFilter.v` | `ddl/database_introspector.go`: `mklist`; the filter lines of `introspection_scripts/*_tables.sql` |
| `ModelDsn.v` | `ddl/ddl.go`: `NormalizeDSN`; `drivers/*`: `PreprocessDSN`; `net/url`: `Parse`, `ParseQuery`, `Encode` in part |
| `ModelTriggers.v` | `ddl/database_introspector.go`: `GetTriggers` and `WriteCatalog` for triggers of SQLite; `ddl/catalog_cache.go`: `AddOrUpdateTrigger`; `ddl/sqlite_migration.go`: `copyTable` |
| `ModelAnnotate.v` | `drivers/ddlpostgres/ddlpostgres.go`, `drivers/ddlsqlserver/ddlsqlserver.go`: `AnnotateError`; Go `fmt.Errorf` (part) |
| `ModelMain.v` | `main.go`; the flags of the `*_cmd.go`; Go `flag.(*FlagSet).Parse` |
| `ModelViews.v` | `view_structs.go` |
| `ModelTables.v` | `tables_cmd.go`, `views_cmd.go`: `Run` |
| `ModelSources.v` | `generate_cmd.go`: `writeCatalog` and the flags of `GenerateCommand` |
| `ModelCombine.v` | `database_introspector.go`: `WriteCatalog` for several databases, `generate_cmd.go:117-123` |
| `ModelExtras.v` | `ddl/database_introspector.go` and `introspection_scripts`: `WriteCatalog` for extensions, enums, domains and routines; the catalog tables of the database are represented by the objects they describe |
| `ModelTyped.v` | `ddl/dump_cmd.go`: the files of a Postgres dump with the extensions and types of `ModelExtras.v`; no names are included or excluded |
| `ModelDeep.v` | `ddl/catalog_cache.go`: `WriteCatalog` for all kinds of objects with slices and maps as cells of a heap, `NewCatalogCache`, `GetOrCreate...`; slices of objects are lists, fields of columns that are not in `ModelCatalog.v` a list of texts |
| `ModelLiveViews.v` | `ddl/database_introspector.go`: `GetViews` and the views in `WriteCatalog`, with the four scripts `*_views.sql`; no indexes and triggers of views, lengths in bytes |
| `ModelLiveTriggers.v` | `ddl/database_introspector.go`: `GetTriggers` and the triggers in `WriteCatalog`, with the four scripts `*_triggers.sql`; the tables and views are in the catalog already, the caches are looked up by names |
| `ModelJson.v` | encoding/json (Go 1.18) as used by `dump_cmd.go` and `generate_cmd.go` for schema.json, for values of the types of `ddl.go:52-564`; the text is written with its indentation at once, maps are lists in order, nil and empty slices are the same, elements of a slice between its length and its capacity are zero |
| `ModelDumpData.v` | the queries for the data of a dump without subset queries, `dump_cmd.go:252-292`, the first lines of the files, and the order in which the queries are asked; a query is answered at one moment, rows are in the order of the key |
| `ModelStamp.v` | times as texts: the formats of `load --timestamp-as-integer` (`load_cmd.go:329-339, 475-489`), the format that dump writes (`dump_cmd.go:971-976`), and of Go's package time: `parse` for the parts that these formats have, `daysSinceEpoch`, `absDate`, `daysIn`, `Date`, `Unix`; nanoseconds left out, formatting only for years 0 to 9999 |
| `ModelFlags.v` | the command line: `FlagSet.Parse` of Go's package flag, the flags and checks of the 12 `*Command` constructors, `strslice`, and `main` (`main.go:44-260`); not modelled: texts printed, what errors say, opening databases, files and sources (part of running a command); `strconv.ParseInt`, `time.ParseDuration` and whether `NormalizeDSN` finds a dialect are parameters |
| `ModelReport.v` | the loop of `ExecContext` stopped at the first error and the range of records that `loadCSV` names (`load_cmd.go:417-522`); simplified: the ceiling of the floating point quotient is taken as the integer one (equal below 2^52 records), times and the inner error are left out |
| `ModelScripts.v` | which scripts are sent by `WriteCatalog` and `wipe`, with the conditions on versions and constraint types in them, and the version-dependent features of the databases that each uses; simplified: a script is the list of such features, the rest of its text is left out here |
| `ModelFilling.v` | the columns `extra`, `generation_expression`, `attidentity`, `attgenerated`, `seed_value` etc. as the scripts and `GetColumns` turn them into the fields of a column; simplified: other fields of the column are passed through (types: C86, defaults: C87), MySQL compares texts without regard to ASCII case |
| `ModelTimeKey.v` | the loop that reads the keys of a subset query, `Timestamp.Scan`, literals of times; simplified: keys with one column, years 0 to 9999 |
| `ModelMistakes.v` | the locations of the reports of the struct parser while the modifiers of a field are read, `parserDiagnostics.Error`, `Diagnostics`, the linter's `Reportf`; simplified: positions are texts, checks across fields are left to C78 |
| `ModelReading.v` | the sequence of queries of `WriteCatalog` with answers that are refused or break off, `closeRows`; simplified: what a row is turned into is a parameter, `rows.Close` succeeds |
| `ModelPrefix.v` | the prefix of generated files (`time.Now().UTC().Format`) and the directory they are written to; simplified: whole seconds, years 0 to 9999, files are written without errors, no -dry-run |
| `ModelBytea.v` | `internal/pqarray`: binary values and arrays of them; simplified: nil and empty slices are not distinguished |

Not modelled: reading comments of tables and columns and indexes of views from
live databases, migrations of triggers except those of SQLite, the parser of Go and `go/format`, drivers,
archives. Definitions about database systems (`Spec*.v`) are written from their
documentation.

## Simplifications

* `strings.TrimSpace`, upper and lower case: ASCII only.
* Modifiers: loops over bytes instead of runes; an error result carries no partial value.
* Batch insert: memory limits of huge batch sizes are ignored, an empty column list is an
  error, MySQL tables have one key, upserts are described by a table semantics.
* `touch`: preparing a statement is part of the write. `ls`: times and errors while printing
  are left out, the sort order of the database is an oracle. Collations of file names are
  ignored everywhere.
* Catalog cache: pointers are positions in lists, maps are functions; views, routines,
  triggers, enums, domains and comments are left out.
* Generated migrations: statements are abstract values (their text is in `ModelDdlText.v`); each Go loop is a function
  on lists; slices do not share memory; `ParseFloat` is an oracle.
* Texts of migrations (C75): tables and indexes with a stored CREATE text, views, routines and
  triggers are left out; types and expressions are read as sequences of tokens; the readers in
  `SpecDdl.v` know the clauses that migrations use and accept them in any order where the
  database does.
* `generate`: `filepath.Join` puts a text before the name, reading catalogs is left out.
* CSV: `encoding/csv`, `hex` and `json` are modelled from their documentation, bytes from 128
  on are copied by `json`, floats and times are represented by their text, conversions of the
  drivers are left out, `filepath.Base` is simplified.
* Session: a failed statement has no effect, a rollback always works.
* `wipe`: dependencies between objects are given as a closed relation, foreign keys are parts
  of tables on SQLite.
* Subsets: other constraints than foreign keys are left out, addresses of constraints are
  numbers, maps are association lists; queries are syntax trees whose text is related to them
  by a lexer and a parser without comments.
* Table structs: package clause, imports and the layout of the Go file are left out, bytes from
  128 on stand for printable characters, the escapes `\u`, `\U` and those with octal digits
  count as errors; reports carry no text or position; the name of an unknown dialect is empty;
  columns do not repeat their foreign key; a second `WriteCatalog` on the same structs is not
  modelled.
* Arrays: the delimiter is the comma, ParseFloat is an oracle, JSON text as for CSV.
* Effect of migrations (C39): rows, types of referenced columns, implicit indexes, the order of
  columns and the columns of check constraints are left out; the parts of a MySQL ALTER TABLE
  are run one after the other. SQLite: check constraints, generated columns, triggers, views and
  upper and lower case of names are left out, and a new column is refused whenever it would be
  refused for a table with rows.

## Mutation tests

`tools/mutate.py` edits one definition in a copy of the development, rebuilds and records the
property theorems that fail. In the first 299 lines of `seeded/LOG.jsonl` the failing theorems
are those of files that stop compiling at or after the edit (an upper bound); from then on
they are exact: each theorem is checked again by itself.
