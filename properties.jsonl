{"id": "C01", "title": "Quoted identifiers cannot break out of their token", "statement": "For every dialect and every byte string used as an identifier, the text returned by QuoteIdentifier is read by a lexer of that dialect as exactly one identifier token that spans the whole text: no input can terminate the token early or leave it open.", "quantifier": "every dialect, every byte string, every text that follows the identifier", "why_tests_cant": "The inputs are arbitrary strings of quote and bracket characters of any length; a test samples a few, an injection only needs one run of quotes that a test did not try.", "anchors": ["ddl/sq.go: QuoteIdentifier, EscapeQuote"]}
{"id": "C02", "title": "A quoted identifier denotes the name it was given", "statement": "Reading the text returned by QuoteIdentifier back with the dialect's identifier rules yields the original name, and two different names never yield the same text.", "quantifier": "every dialect, every name", "why_tests_cant": "Injectivity relates all pairs of names; it fails only on names with doubled quotes, which no sample suite enumerates.", "anchors": ["ddl/sq.go: QuoteIdentifier, EscapeQuote"]}
{"id": "C03", "title": "A string printed as an SQL literal evaluates to that string", "statement": "For every string s, evaluating the SQL expression returned by Sprint(dialect, s) under the dialect's literal, concatenation and CHR/CHAR rules gives back exactly s, including carriage returns, line feeds and quotes.", "quantifier": "every dialect, every byte string", "why_tests_cant": "The expression splits the string at every CR/LF and doubles every quote; the claim is about all interleavings of those characters.", "anchors": ["ddl/sq.go: Sprint"]}
{"id": "C04", "title": "Binary, boolean, integer and nil values printed as SQL evaluate back to themselves", "statement": "For every nil, boolean, integer and byte-slice value v, the SQL literal returned by Sprint(dialect, v) evaluates under the dialect's literal rules to v.", "quantifier": "every dialect, every integer, every byte string, both booleans, nil", "why_tests_cant": "Integers and byte strings range over unbounded domains; hexadecimal and decimal round trips are laws, not samples.", "anchors": ["ddl/sq.go: Sprint"]}
{"id": "C05", "title": "Parameter substitution leaves literals and quoted identifiers alone", "statement": "Sprintf copies every part of a query that is not a parameter marker unchanged and in order: text inside string literals and quoted identifiers is never substituted, and with no arguments the query is returned as is.", "quantifier": "every dialect, every query string, every argument list", "why_tests_cant": "The scanner state depends on the whole prefix of the query; the property ranges over all prefixes.", "anchors": ["ddl/sq.go: Sprintf, lookupParam, mustWriteCharAt"]}
{"id": "C06", "title": "Parameter substitution never crashes", "statement": "Sprintf returns a string or an error for every query and every argument list; it never panics, whatever the number of placeholders and arguments.", "quantifier": "every dialect, every query string, every argument list", "why_tests_cant": "Crashes hide in mismatched placeholder and argument counts; all combinations cannot be enumerated.", "anchors": ["ddl/sq.go: Sprintf, lookupParam"]}
{"id": "C07", "title": "Generated object names fit the 63-byte identifier limit and keep their kind", "statement": "GenerateName always returns a name of at most 63 bytes that ends with the suffix of the requested kind of object, is a function of its arguments only, and equals the plain joined name whenever that already fits.", "quantifier": "every kind, every table name, every list of column names", "why_tests_cant": "Truncation arithmetic depends on the exact length of the inputs around the limit and on unbounded lists.", "anchors": ["ddl/ddl.go: GenerateName"]}
{"id": "C08", "title": "Different objects get different generated names", "statement": "Two different (kind, table, columns) triples never receive the same name from GenerateName.", "quantifier": "every pair of triples", "why_tests_cant": "A statement about all pairs; collisions arise only from separators inside names or from truncation.", "anchors": ["ddl/ddl.go: GenerateName"]}
{"id": "C09", "title": "Splitting an argument list loses nothing and never splits inside quotes or brackets", "statement": "Joining the pieces produced for a comma-separated modifier or index column list with commas gives back the input, and every cut is at a comma outside string quotes, parentheses and square brackets.", "quantifier": "every byte string", "why_tests_cant": "The nesting depth and quoting state are unbounded.", "anchors": ["ddl/ddl.go: splitArgs"]}
{"id": "C10", "title": "Column type comparison never crashes", "statement": "Comparing the types of two columns (which normalises each type string) terminates without panicking for every type text, including malformed ones taken from a struct tag.", "quantifier": "every dialect, every type string", "why_tests_cant": "Type strings are free text; only a total argument covers all of them.", "anchors": ["ddl/ddl.go: normalizeColumnType"]}
{"id": "C11", "title": "Column type and default normalisation is stable", "statement": "Normalising an already normalised column type or default gives the same result, so re-reading a schema that was written from a normalised catalog reports no difference.", "quantifier": "every dialect, every type string, every default expression", "why_tests_cant": "Idempotence is a law over all strings; the counterexamples need particular combinations of suffixes and casts.", "anchors": ["ddl/ddl.go: normalizeColumnType, normalizeColumnDefault"]}
{"id": "C12", "title": "Version comparison is a consistent order", "statement": "VersionNums.LowerThan and GreaterOrEqualTo are complementary, LowerThan is irreflexive and transitive on full version numbers, monotone in each component, and agrees with numeric comparison for single-number thresholds.", "quantifier": "every version list, every threshold list", "why_tests_cant": "Order laws quantify over all triples of lists.", "anchors": ["ddl/ddl.go: VersionNums.LowerThan, VersionNums.GreaterOrEqualTo"]}
{"id": "C13", "title": "Struct-tag modifiers survive printing and parsing", "statement": "Parsing the text printed for a list of well-formed modifiers yields the same modifiers (names, values and nested submodifiers), and parsing never panics or loops on any text.", "quantifier": "every well-formed modifier list of any nesting depth; every byte string for totality", "why_tests_cant": "Modifier values nest to any depth; a round-trip law cannot be sampled exhaustively.", "anchors": ["ddl/modifier.go: NewModifiers, Modifiers.String, Modifier.ParseSubmodifiers, popModifier, popValue"]}
{"id": "C14", "title": "Migration scripts are selected and ordered as documented", "statement": "The scripts considered by migrate, touch and ls are exactly the .sql files that are not undo scripts and not named schema.sql, indexes.sql or constraints.sql; regular scripts keep their given order and all come before the repeatable ones, which also keep their order.", "quantifier": "every list of file names", "why_tests_cant": "Quantifies over all lists; stability and completeness of the partition are not visible in single examples.", "anchors": ["ddl/touch_cmd.go: sortAndFilterFilenames", "ddl/migrate_cmd.go: MigrateCmd.Run"]}
{"id": "C15", "title": "A script recorded as successful has had its effects committed", "statement": "After any run of migrate, including one interrupted by a crash, a failed statement, a failed commit or a lock timeout at any point, every history row that the run changed to success belongs to a script whose effects are committed in the database.", "quantifier": "every migration directory, every initial history, every script outcome, every crash point", "why_tests_cant": "Crash points and failure schedules multiply with the number of scripts; tests cannot stop the process between every two database operations.", "anchors": ["ddl/migrate_cmd.go: MigrateCmd.Run, MigrateCmd.runWithRetry, MigrateCmd.run"]}
{"id": "C16", "title": "A transactional batch is all or nothing", "statement": "If any script of a transactional batch fails, or the process dies before the commit, then no script of that batch has any effect on the database and none of them is recorded as successful.", "quantifier": "every batch, every position of the failure or crash", "why_tests_cant": "Needs every failure position in every batch length.", "anchors": ["ddl/migrate_cmd.go: MigrateCmd.run"]}
{"id": "C17", "title": "A regular migration that succeeded is never run again", "statement": "If the history says a regular (non-repeatable) migration succeeded, no later sequence of migrate runs executes it again, even if it is passed explicitly on the command line.", "quantifier": "every history, every list of file names, every sequence of runs and outcomes", "why_tests_cant": "A statement about unbounded histories of runs.", "anchors": ["ddl/migrate_cmd.go: MigrateCmd.Run"]}
{"id": "C18", "title": "Repeatable migrations are run exactly when their contents changed", "statement": "A repeatable migration is executed by migrate if and only if it has no successful history row with the checksum of its current contents (ignoring CRLF versus LF line endings).", "quantifier": "every history, every file content", "why_tests_cant": "All contents and histories; includes the line-ending equivalence over arbitrary byte strings.", "anchors": ["ddl/migrate_cmd.go: MigrateCmd.Run"]}
{"id": "C19", "title": "Migrate stops at the first failing script", "statement": "The scripts executed and committed by a run are a prefix of the pending list (in documented order), and nothing is executed after a script that failed.", "quantifier": "every pending list, every outcome assignment", "why_tests_cant": "Quantifies over all outcome assignments of all lists.", "anchors": ["ddl/migrate_cmd.go: MigrateCmd.Run, MigrateCmd.runWithRetry, MigrateCmd.run"]}
{"id": "C20", "title": "Migrations are grouped into transactions as documented", "statement": "Outside MySQL, consecutive pending plain scripts share one transaction, every .tx.sql script runs in a transaction of its own and every .txoff.sql script runs outside any transaction; on MySQL every script runs alone and only .tx.sql scripts run in a transaction.", "quantifier": "every dialect, every list of pending scripts", "why_tests_cant": "The grouping rule is a property of all sequences of suffixes.", "anchors": ["ddl/migrate_cmd.go: MigrateCmd.Run, MigrateCmd.runWithRetry, MigrateCmd.run"]}
{"id": "C21", "title": "Lock-timeout retries are bounded and spaced", "statement": "A batch is attempted at most max(1, MaxAttempts) times, it is attempted again only after a lock timeout of a retryable batch, and every wait lies between BaseDelay and MaxDelay.", "quantifier": "every sequence of outcomes, every MaxAttempts, BaseDelay and MaxDelay, every random draw", "why_tests_cant": "Ranges over all outcome sequences and random choices.", "anchors": ["ddl/migrate_cmd.go: MigrateCmd.runWithRetry"]}
{"id": "C22", "title": "Migrate never crashes because of a timeout", "statement": "Whatever errors the database returns and whatever delays are configured, migrate reports an error instead of panicking.", "quantifier": "every error schedule (including errors from BEGIN), every delay configuration", "why_tests_cant": "The crash needs a specific error at a specific point or a sub-second delay.", "anchors": ["ddl/migrate_cmd.go: MigrateCmd.runWithRetry, MigrateCmd.run"]}
{"id": "C23", "title": "A failed non-transactional migration triggers its undo script", "statement": "When a migration that is not run in a transaction fails and an undo script exists for it, that undo script is executed.", "quantifier": "every non-transactional script, every content, every failure", "why_tests_cant": "Whether undo runs depends on the contents of the script; all contents cannot be tried.", "anchors": ["ddl/migrate_cmd.go: MigrateCmd.runWithRetry, MigrateCmd.undo"]}
{"id": "C24", "title": "After touch, migrate has nothing to do", "statement": "After touch succeeds on a set of files, migrate on the same unchanged files executes nothing, and touch itself executes no script and changes no other history row.", "quantifier": "every directory, every history", "why_tests_cant": "All histories and contents, including repeatable scripts and mixed lists.", "anchors": ["ddl/touch_cmd.go: TouchCmd.Run", "ddl/migrate_cmd.go: MigrateCmd.Run"]}
{"id": "C25", "title": "touch records a checksum for repeatable scripts only", "statement": "touch stores the checksum of the current contents for every repeatable script and no checksum for a regular script, although one row buffer is reused for all rows.", "quantifier": "every list of file names in every order", "why_tests_cant": "Depends on the order of all rows flowing through one shared buffer.", "anchors": ["ddl/touch_cmd.go: TouchCmd.Run"]}
{"id": "C26", "title": "rm makes exactly the removed migrations pending again", "statement": "After rm of some files, migrate considers exactly those files (and the ones already pending) as pending; other rows are untouched.", "quantifier": "every history, every file list", "why_tests_cant": "All histories and lists.", "anchors": ["ddl/rm_cmd.go: RmCmd.Run", "ddl/migrate_cmd.go: MigrateCmd.Run"]}
{"id": "C27", "title": "mv reports failure when the rename did not happen", "statement": "When mv returns no error, the history row of the source file has been renamed to the destination (or there was no such row); every database error is reported.", "quantifier": "every history, every pair of names, every database error", "why_tests_cant": "Needs the error path of the database for every state.", "anchors": ["ddl/mv_cmd.go: MvCmd.Run"]}
{"id": "C28", "title": "ls shows exactly what migrate would run", "statement": "For every directory and every history written by this tool, the scripts that ls shows as pending or failed are exactly the scripts that migrate would execute, in the same order.", "quantifier": "every directory, every reachable history", "why_tests_cant": "Relates two programs on all inputs.", "anchors": ["ddl/ls_cmd.go: LsCmd.Run", "ddl/migrate_cmd.go: MigrateCmd.Run"]}
{"id": "C29", "title": "Re-running migrate after a crash reaches the same state as an uninterrupted run", "statement": "If migrate is killed at any point while applying transactional scripts and then run again to completion, the database effects and the success rows are the same as those of one uninterrupted run, each script having been applied exactly once.", "quantifier": "every pending list of transactional scripts, every crash point, any number of crashes", "why_tests_cant": "All crash points, any number of times.", "anchors": ["ddl/migrate_cmd.go: MigrateCmd.Run, MigrateCmd.run"]}
{"id": "C30", "title": "Two concurrent migrate runs do not apply a script twice", "statement": "When two migrate processes run against the same database at the same time, every script is applied at most once.", "quantifier": "every interleaving of two processes", "why_tests_cant": "Interleavings cannot be forced by tests.", "anchors": ["ddl/migrate_cmd.go: MigrateCmd.Run"]}
{"id": "C31", "title": "Batch insert delivers every row exactly once and in order", "statement": "The rows sent to the database by BatchInsert.ExecContext, concatenated over all statements, are exactly the rows produced by the iterator, in order, each statement carrying as many arguments as placeholders.", "quantifier": "every number of rows, columns, every batch size, every dialect", "why_tests_cant": "All row counts relative to all batch sizes, including remainders.", "anchors": ["ddl/batch_insert.go: BatchInsert.ExecContext, writeRowValues"]}
{"id": "C32", "title": "Batch insert never exceeds the database's parameter limit", "statement": "Every statement sent by BatchInsert.ExecContext binds at least one row and no more parameters than the dialect's limit.", "quantifier": "every dialect, every number of columns, every batch size", "why_tests_cant": "The limit interacts with all column counts.", "anchors": ["ddl/batch_insert.go: BatchInsert.ExecContext"]}
{"id": "C33", "title": "Batch insert with key columns is an upsert", "statement": "For rows with distinct keys, the table after the batch insert is the table before with every incoming row inserted or replacing the row with the same key, on every dialect, including the SQL Server UPDATE followed by INSERT WHERE NOT EXISTS; all other rows are unchanged.", "quantifier": "every table state, every row list, every batch size", "why_tests_cant": "All table contents and batch boundaries.", "anchors": ["ddl/batch_insert.go: BatchInsert.ExecContext"]}
{"id": "C34", "title": "The catalog cache finds exactly what is in the catalog", "statement": "After any sequence of get-or-create and add-or-update calls on a catalog cache, looking up a table, column, constraint or index by name returns the object with that name in the catalog, and nothing when there is none; no object is stored twice under one name.", "quantifier": "every initial catalog with distinct names, every sequence of operations", "why_tests_cant": "Histories of operations of any length.", "anchors": ["ddl/catalog_cache.go: NewCatalogCache, CatalogCache.GetOrCreateSchema, CatalogCache.GetOrCreateTable, CatalogCache.GetOrCreateColumn, CatalogCache.AddOrUpdateTable, CatalogCache.GetTable"]}
{"id": "C35", "title": "Diffing a schema against itself produces no migration", "statement": "For every dialect, generating a migration from a catalog to the same catalog yields no statement and no file.", "quantifier": "every well-formed catalog, both settings of DropObjects", "why_tests_cant": "All catalogs of any size.", "anchors": ["ddl/sqlite_migration.go: newSQLiteMigration", "ddl/mysql_migration.go: newMySQLMigration", "ddl/postgres_migration.go: newPostgresMigration", "ddl/sqlserver_migration.go: newSQLServerMigration"]}
{"id": "C36", "title": "Without DropObjects nothing is dropped", "statement": "If DropObjects is not set, the generated migration contains no DROP SCHEMA, DROP TABLE or DROP COLUMN and drops no foreign key or index except to recreate it.", "quantifier": "every pair of catalogs, every dialect", "why_tests_cant": "All pairs of catalogs.", "anchors": ["ddl/sqlite_migration.go: newSQLiteMigration", "ddl/mysql_migration.go: newMySQLMigration", "ddl/postgres_migration.go: newPostgresMigration", "ddl/sqlserver_migration.go: newSQLServerMigration"]}
{"id": "C37", "title": "Missing tables and columns are all created, once", "statement": "Every table of the destination catalog that is missing from the source is created exactly once, and every column missing from an existing table is added exactly once; nothing else is created.", "quantifier": "every pair of catalogs with distinct names, every dialect", "why_tests_cant": "All pairs of catalogs.", "anchors": ["ddl/sqlite_migration.go: newSQLiteMigration", "ddl/mysql_migration.go: newMySQLMigration", "ddl/postgres_migration.go: newPostgresMigration", "ddl/sqlserver_migration.go: newSQLServerMigration"]}
{"id": "C38", "title": "With DropObjects every superfluous column is dropped", "statement": "If DropObjects is set, every column that is in a source table but not in the corresponding destination table is dropped by the generated migration.", "quantifier": "every pair of catalogs, every dialect", "why_tests_cant": "The omission shows only for tables whose sole difference is a removed column.", "anchors": ["ddl/sqlite_migration.go: newSQLiteMigration", "ddl/mysql_migration.go: newMySQLMigration", "ddl/postgres_migration.go: newPostgresMigration", "ddl/sqlserver_migration.go: newSQLServerMigration"]}
{"id": "C39", "title": "Applying the generated migration makes the schemas agree", "statement": "Applying the generated migration (with DropObjects) to the source schema gives a schema with the same tables and columns as the destination, and generating again yields nothing.", "quantifier": "every pair of catalogs with distinct names", "why_tests_cant": "Convergence over all pairs of catalogs.", "anchors": ["ddl/sqlite_migration.go: newSQLiteMigration", "ddl/mysql_migration.go: newMySQLMigration", "ddl/postgres_migration.go: newPostgresMigration", "ddl/sqlserver_migration.go: newSQLServerMigration"]}
{"id": "C40", "title": "Foreign keys are handled in a safe order", "statement": "In the generated migration every foreign key is dropped before any table is dropped and every foreign key is added only after all tables have been created, on the table that owns it.", "quantifier": "every pair of catalogs", "why_tests_cant": "All reference graphs, including mutual references.", "anchors": ["ddl/postgres_migration.go: newPostgresMigration, postgresMigration.sql", "ddl/mysql_migration.go: mysqlMigration.sql", "ddl/sqlserver_migration.go: sqlserverMigration.sql"]}
{"id": "C41", "title": "Generated files sort in the order in which they must run", "statement": "Sorting the names of the generated migration files alphabetically (the order used by migrate) gives the order in which they were generated.", "quantifier": "every number of generated files", "why_tests_cant": "Depends on the number of files crossing a digit boundary.", "anchors": ["ddl/mysql_migration.go: mysqlMigration.sql", "ddl/postgres_migration.go: postgresMigration.sql", "ddl/sqlserver_migration.go: sqlserverMigration.sql", "ddl/generate_cmd.go: GenerateCmd.Run"]}
{"id": "C42", "title": "Narrowing a column is always announced by a warning", "statement": "On Postgres, whenever the generated migration lowers a VARCHAR limit, lowers a NUMERIC precision or changes its scale, changes a type in a way not known to be safe, or adds a NOT NULL column without a default, a warning is produced.", "quantifier": "every pair of columns", "why_tests_cant": "All pairs of type strings.", "anchors": ["ddl/postgres_migration.go: newPostgresMigration, postgresMigration.sql"]}
{"id": "C43", "title": "Warnings stop generation unless accepted", "statement": "generate and automigrate write no file and execute nothing when warnings are present, unless warnings were accepted; a dry run never writes a file or executes anything.", "quantifier": "every flag combination, every list of warnings and files", "why_tests_cant": "All combinations of flags with all results.", "anchors": ["ddl/generate_cmd.go: GenerateCmd.Run", "ddl/automigrate_cmd.go: AutomigrateCmd.Run"]}
{"id": "C44", "title": "A dumped CSV field loads back as the same value", "statement": "For every column value, writing it with dump and reading it back with load gives the same value; in particular NULL stays NULL and a non-NULL value stays non-NULL.", "quantifier": "every value of every column kind, every null string", "why_tests_cant": "All values, in particular the ones that look like the null marker.", "anchors": ["ddl/dump_cmd.go: DumpCmd.dumpCSV", "ddl/load_cmd.go: LoadCmd.loadCSV"]}
{"id": "C45", "title": "A dumped table loads back into the same table", "statement": "The table that load derives from the name of a CSV file written by dump is the table that was dumped.", "quantifier": "every schema and table name", "why_tests_cant": "All names, in particular those starting with digits or containing dots.", "anchors": ["ddl/dump_cmd.go: DumpCmd.Run", "ddl/load_cmd.go: LoadCmd.loadCSV"]}
{"id": "C46", "title": "Session settings are restored", "statement": "Whatever happens during load or migrate, the session variable that was changed has its previous value again after the command, unless restoring it itself failed.", "quantifier": "every previous value, every sequence of calls of the restore function, every error point", "why_tests_cant": "All error points.", "anchors": ["ddl/load_cmd.go: setSessionValue", "ddl/migrate_cmd.go: MigrateCmd.Run"]}
{"id": "C47", "title": "A subset dump is referentially intact", "statement": "For every subset query, every foreign key of a dumped row refers to a dumped row (when the referenced row exists in the database).", "quantifier": "every schema, every database content, every subset query", "why_tests_cant": "All reference graphs, including diamonds and self references.", "anchors": ["ddl/subsetter.go: InMemorySubsetter.subset, InMemorySubsetter.Query"]}
{"id": "C48", "title": "Computing a subset always terminates with connected joins", "statement": "Following foreign keys for a subset query always terminates, visits each foreign key at most once, never visits a table twice within one join path, and every join path is connected so that the corresponding SQL can be built.", "quantifier": "every schema, every starting table", "why_tests_cant": "All foreign key graphs, including cyclic ones.", "anchors": ["ddl/subsetter.go: InMemorySubsetter.subset, joinClause"]}
{"id": "C49", "title": "A malformed subset query is reported as an error", "statement": "Every subset query text, however malformed, is either accepted or rejected with an error; it never crashes the program.", "quantifier": "every byte string", "why_tests_cant": "All placements of braces in all strings.", "anchors": ["ddl/subsetter.go: InMemorySubsetter.subset"]}
{"id": "C50", "title": "wipe drops every object in a workable order", "statement": "The statements produced by wipe drop every view, foreign key, table, routine, enum, domain and extension (except plpgsql) that exists, each once, with views before foreign keys before tables; a dry run executes nothing.", "quantifier": "every database catalog", "why_tests_cant": "All catalogs.", "anchors": ["ddl/wipe_cmd.go: WipeCmd.Run"]}
{"id": "C51", "title": "Column types compare equal exactly when they mean the same type", "statement": "Two spellings of the same type (synonyms, letter case, white space, display widths) normalise to the same triple, and two types that are not synonyms never do, so generate neither misses nor invents a type change.", "quantifier": "every dialect, every pair of type texts", "why_tests_cant": "Absence of false equality is a statement about all pairs of type texts.", "anchors": ["ddl/ddl.go: normalizeColumnType"]}
{"id": "C52", "title": "File arguments are understood with or without the directory", "statement": "A file given on the command line as a path that begins with the migration directory (with or without ./), or relative to that directory, is understood as the same file of the directory; a file name is never changed into the name of another file.", "quantifier": "every directory name, every file name", "why_tests_cant": "A claim about all pairs of directory and file name, including names that share a prefix.", "anchors": ["ddl/ddl.go: normalizeFilename", "ddl/migrate_cmd.go: MigrateCommand", "ddl/touch_cmd.go: TouchCommand", "ddl/rm_cmd.go: RmCommand", "ddl/mv_cmd.go: MvCommand"]}
{"id": "C53", "title": "One run applies a script at most once", "statement": "Within one run of migrate the effects of a script are committed at most once, also when parts of the run are repeated after lock timeouts.", "quantifier": "every directory, history, configuration and sequence of database replies", "why_tests_cant": "All positions at which lock timeouts can occur.", "anchors": ["ddl/migrate_cmd.go: MigrateCmd.runWithRetry, MigrateCmd.run"]}
{"id": "C54", "title": "An undone script is not recorded as successful", "statement": "When the undo script of a migration has been executed, the history does not say that the migration succeeded.", "quantifier": "every directory, history and sequence of database replies", "why_tests_cant": "All combinations of failing statements and failing history updates.", "anchors": ["ddl/migrate_cmd.go: MigrateCmd.run, MigrateCmd.undo"]}
{"id": "C55", "title": "A second migrate does nothing", "statement": "After a run of migrate that reported success, a second run on the same unchanged files executes no script and changes neither the database nor the history.", "quantifier": "every directory, argument list, history and sequence of database replies of both runs", "why_tests_cant": "A relation between two runs for all directories and histories.", "anchors": ["ddl/migrate_cmd.go: MigrateCmd.Run"]}
{"id": "C56", "title": "Batch insert updates the sequence of every identity column", "statement": "On Postgres a successful BatchInsert.ExecContext sets the sequence of each inserted identity column, and it looks that sequence up under the name of the table and the name of the column.", "quantifier": "every table name, schema, column name and list of rows", "why_tests_cant": "Names that need quotes behave differently in the two arguments of pg_get_serial_sequence; no finite set of names covers this.", "anchors": ["ddl/batch_insert.go: BatchInsert.ExecContext"]}
{"id": "C57", "title": "Batch insert switches IDENTITY_INSERT off again", "statement": "However BatchInsert.ExecContext ends, IDENTITY_INSERT is off for the table afterwards, so that later statements of the same session are not refused.", "quantifier": "every list of rows, every point at which the iterator or the database fails", "why_tests_cant": "All points of failure.", "anchors": ["ddl/batch_insert.go: BatchInsert.ExecContext"]}
{"id": "C58", "title": "touch is all or nothing", "statement": "At every point at which touch may fail or be killed, either the history is unchanged or every selected script is recorded as successful.", "quantifier": "every list of files (any number of batches), every sequence of database replies, every point of interruption", "why_tests_cant": "All failure points of runs with any number of batches.", "anchors": ["ddl/touch_cmd.go: TouchCmd.Run", "ddl/batch_insert.go: BatchInsert.ExecContext"]}
{"id": "C59", "title": "The status words of ls are right", "statement": "ls shows a script as applied exactly if the history says that its current version has been applied, as failed exactly if its last execution failed, and as pending otherwise.", "quantifier": "every directory, every history written by the tool, all flags, every sequence of database replies", "why_tests_cant": "All histories and contents.", "anchors": ["ddl/ls_cmd.go: LsCmd.Run"]}
{"id": "C60", "title": "ls shows exactly the missing scripts", "statement": "With -missing or -all, ls lists exactly the scripts that are recorded in the history but are not in the migration directory.", "quantifier": "every directory, every history", "why_tests_cant": "All directories and histories.", "anchors": ["ddl/ls_cmd.go: LsCmd.Run"]}
{"id": "C61", "title": "A struct-tag value is exactly what was written between its braces", "statement": "A value in a struct tag is the text up to the first blank, or, when it begins with a brace, the text between this brace and its partner; a brace without partner is reported, and text directly after the closing brace is not silently taken into the value.", "quantifier": "every byte string", "why_tests_cant": "All nestings of braces in all texts.", "anchors": ["ddl/modifier.go: popValue"]}
{"id": "C62", "title": "The keys of a table are the constraints of that type", "statement": "After any sequence of get-or-create and add-or-update calls, asking a catalog cache for the primary key of a table returns its primary key constraint, and asking for its foreign keys returns exactly its foreign key constraints, in the order of the table.", "quantifier": "every initial catalog with distinct names, every sequence of operations", "why_tests_cant": "the lists of keys are maintained separately from the constraints, by every operation in every order", "anchors": ["ddl/catalog_cache.go: CatalogCache.GetPrimaryKey, CatalogCache.GetForeignKeys, CatalogCache.GetOrCreateConstraint, CatalogCache.AddOrUpdateConstraint, NewCatalogCache"]}
{"id": "C63", "title": "Writing a catalog to an empty catalog copies it", "statement": "Catalog.WriteCatalog with an empty destination produces a catalog with the same schemas, tables, columns, constraints and indexes, with all their attributes and in the same order.", "quantifier": "every catalog with distinct names", "why_tests_cant": "it must hold for catalogs of every size and shape, with every combination of names and attributes", "anchors": ["ddl/catalog_cache.go: Catalog.WriteCatalog"]}
{"id": "C64", "title": "Missing foreign keys are all added, once", "statement": "On MySQL and Postgres the generated migration adds exactly the foreign keys of the destination catalog that are missing from the source, each once, whether they belong to new or to existing tables and however they are grouped into files.", "quantifier": "every pair of catalogs with distinct names in which constraints of the same name are of the same kind", "why_tests_cant": "Keys are collected from several places and grouped by the tables they join; completeness is about all catalogs.", "anchors": ["ddl/postgres_migration.go: newPostgresMigration", "ddl/mysql_migration.go: newMySQLMigration"]}
{"id": "C65", "title": "migrate runs the generated files and finds their undo files", "statement": "The files written by generate have different names; migrate runs all of them except the undo files, in the order in which they were generated, and after a failure it looks for exactly the undo file that was generated for the failed file.", "quantifier": "every pair of catalogs whose names contain neither a dot nor a slash, every number of files, every prefix without dots and slashes other than schema, indexes and constraints", "why_tests_cant": "The names are made of the names of tables and constraints and are taken apart again by other code; the two must agree for all names.", "anchors": ["ddl/generate_cmd.go: Results", "ddl/touch_cmd.go: sortAndFilterFilenames", "ddl/migrate_cmd.go: undo"]}
{"id": "C66", "title": "automigrate runs exactly what was generated", "statement": "When automigrate reports success and is not a dry run, the scripts executed on the database are exactly the generated files that are not undo files, in the order in which they were generated and with the generated contents; if no lock timeout occurs each is executed exactly once. It needs no entry in the history table and none can make it leave out a script.", "quantifier": "every pair of catalogs with distinct names free of dots and slashes, every history, every sequence of database replies", "why_tests_cant": "The file names are derived from object names, then sorted and filtered again by migrate; all catalogs and all failures of the database are quantified over.", "anchors": ["ddl/automigrate_cmd.go: AutomigrateCmd.Run", "ddl/migrate_cmd.go: MigrateCmd.Run"]}
{"id": "C67", "title": "generate writes the generated files and nothing else", "statement": "When generate reports success every generated file exists in the output directory with exactly the generated contents and every other file is as before; whatever happens no other file is opened, and if no write fails generate succeeds whenever there are no warnings or they were accepted.", "quantifier": "every list of files with distinct names, every list of warnings, every pattern of failing writes", "why_tests_cant": "All lists of files and all patterns of failures.", "anchors": ["ddl/generate_cmd.go: GenerateCmd.Run"]}
{"id": "C68", "title": "CSV file names are read as documented", "statement": "load discards a number and an underscore at the beginning of the name of a CSV file, takes what precedes the first dot as the schema and the rest as the table, and without a dot the whole name as the table in the current schema.", "quantifier": "every file name and directory", "why_tests_cant": "All names.", "anchors": ["ddl/load_cmd.go: LoadCmd.loadCSV, startsWithNumber", "sqddl.md: load"]}
{"id": "C69", "title": "A dump that reports success is complete", "statement": "If reading the rows of a table breaks off, dump reports an error; when dump succeeds the CSV file holds every row.", "quantifier": "every table, every point where the connection breaks", "why_tests_cant": "Connections do not break at every row in tests.", "anchors": ["ddl/dump_cmd.go: DumpCmd.dumpCSV"]}
{"id": "C70", "title": "Session settings can be set back to every previous value", "statement": "The statement that restores a session variable is valid and assigns exactly the value that was read before, whatever that value was.", "quantifier": "every dialect, every value the variable can have", "why_tests_cant": "Tests run with the default settings of the server.", "anchors": ["ddl/load_cmd.go: setSessionValue", "ddl/migrate_cmd.go: MigrateCmd.Run"]}
{"id": "C71", "title": "wipe stays within the database of the connection", "statement": "Wiping a database leaves the objects of the other databases on the same server alone, and never drops objects of the database system itself.", "quantifier": "every database and every set of other databases on the server", "why_tests_cant": "Tests run against servers with one user database, so objects of other databases are never there to be dropped.", "anchors": ["ddl/wipe_cmd.go: WipeCmd.Run", "ddl/introspection_scripts/mysql_tables.sql", "ddl/introspection_scripts/mysql_views.sql"]}
{"id": "C72", "title": "A subset dump contains nothing that is not needed", "statement": "Every row of a subset dump is selected by one of the subset queries, refers (directly or not) to a selected row of an extended query, or is referred to, directly or not, by such rows.", "quantifier": "every schema, every database content, every list of plain and extended subset queries", "why_tests_cant": "All reference graphs and all database contents.", "anchors": ["ddl/subsetter.go: Subsetter.subset, Subsetter.Query, join.toSQL"]}
{"id": "C73", "title": "Keys selected for a subset are written as the values they are", "statement": "Every value of a primary key that a subset query selects is written into the dump queries as a literal that the database reads back as the same value, comparable with the key column.", "quantifier": "every dialect, every column type and every value of that type", "why_tests_cant": "Values with quotes, backslashes, fractions of seconds, binary and UUID keys form an unbounded set, and each dialect has its own rules for literals.", "anchors": ["ddl/subsetter.go: Subsetter.subset", "ddl/sq.go: EscapeQuote"]}
{"id": "C74", "title": "The dump query of a subset table is readable and selects the rows meant", "statement": "The text generated for dumping a table of a subset is accepted by the database and, read by its lexical and syntactic rules, selects exactly the rows of the table whose keys are connected with the selected rows by the joins computed.", "quantifier": "every dialect, every schema, every list of subset queries and results", "why_tests_cant": "The text depends on all names, keys and literals; tests see a few fixed schemas.", "anchors": ["ddl/subsetter.go: Subsetter.Query, join.toSQL"]}
{"id": "C75", "title": "The text of a migration file says what the migration does", "statement": "Every file of a generated migration is a sequence of statements of the target database's language, and read by the rules of that language (lexical rules, quoting, grammar of CREATE, DROP and ALTER) these are exactly the changes that the migration consists of: every table, column type, default, collation, identity, generated expression, key, check and index has the properties that the catalog gives it, and no name is read as another one.", "quantifier": "every dialect, every pair of catalogs, with and without dropping objects", "why_tests_cant": "The text is put together from names, types, expressions and flags in any combination; tests compare a few fixed texts and do not read them by the rules of the database.", "anchors": ["ddl/dump_cmd.go: writeCreateTable, writeColumnDefinition, writeConstraintDefinition, writeIndexDefinition, writeCreateIndex, writeCreateSchema", "ddl/postgres_migration.go: postgresMigration.sql", "ddl/mysql_migration.go: mysqlMigration.sql", "ddl/sqlserver_migration.go: sqlserverMigration.sql", "ddl/sqlite_migration.go: sqliteMigration.sql, copyTable"]}
{"id": "C76", "title": "Reading table structs never crashes", "statement": "Reading Go files with table structs ends with a catalog or with reported errors, never with a crash or without end, whatever the struct tags contain.", "quantifier": "every list of struct declarations, every content of the tags, every dialect and current schema", "why_tests_cant": "Tags are free text in a small language with nested braces; tests contain well-formed tags and some typical mistakes.", "anchors": ["ddl/struct_parser.go: StructParser.VisitStruct, StructParser.WriteCatalog, parseForeignKeyModifier", "ddl/modifier.go: NewModifiers, ParseRawValue", "ddl/ddl.go: normalizeColumnType"]}
{"id": "C77", "title": "A modifier for other databases has no effect", "statement": "A modifier with a prefix that names other databases (as in `mysql:unique=a,b`) changes nothing about the catalog that table structs describe for a database that is not named, and nothing about the errors reported.", "quantifier": "every list of table structs, every set of such modifiers, every dialect", "why_tests_cant": "The effect depends on the other modifiers of the same table, which may name the same key; tests have one struct per dialect.", "anchors": ["ddl/modifier.go: ExcludesDialect", "ddl/struct_parser.go: parseColumnModifiers, parseTableModifiers, parsePrimaryKeyUniqueModifier, parseIndexModifier, parseForeignKeyModifier"]}
{"id": "C78", "title": "Accepted table structs refer only to what exists", "statement": "If no error is reported for table structs, then all columns of keys and indexes are columns of their table, and every foreign key refers to existing columns of an existing table, as many as it has columns itself.", "quantifier": "every list of table structs (one per table), every dialect and current schema", "why_tests_cant": "Needs all combinations of declarations, in any order, with names that are generated, split at commas and dots, or inherited.", "anchors": ["ddl/struct_parser.go: StructParser.WriteCatalog, parseReferencesModifier, parseForeignKeyModifier", "ddl/catalog_cache.go: GetColumn, GetTable, GetSchema"]}
{"id": "C79", "title": "Table structs written as Go code are read back as written", "statement": "The text written for the table structs of a catalog is Go code, and reading it gives the same structs again: the same names, types and tags, and modifiers with the same values and submodifiers.", "quantifier": "every catalog for which table structs are written", "why_tests_cant": "Names, types and default values are arbitrary texts that pass through three layers of quoting (modifiers with braces, Go strings, struct tags).", "anchors": ["ddl/table_structs.go: TableStructs.ReadCatalog, MarshalText, needsQuoting", "ddl/modifier.go: NewModifiers, String, writeBuf", "ddl/struct_parser.go: VisitStruct, ParseFile"]}
{"id": "C80", "title": "Table structs written for a database describe the same database", "statement": "Writing table structs for the catalog of a database as Go code and reading that Go code gives, without any error report, the same catalog: the same tables with the same columns (types, defaults, nullability, identities, collations), keys, foreign keys with their rules, and indexes.", "quantifier": "every catalog whose tables have columns, whose keys refer to existing columns and tables, and for which the structs are Go code; every dialect and current schema", "why_tests_cant": "The code that writes structs leaves out whatever the reader adds by itself (default types, NOT NULL of primary keys, columns of references, generated names); the two sides have to agree for all combinations of columns, keys and types in four dialects.", "anchors": ["ddl/table_structs.go: TableStructs.ReadCatalog", "ddl/struct_parser.go: StructParser.WriteCatalog, VisitStruct", "ddl/modifier.go: NewModifiers"]}
{"id": "C81", "title": "An array dumped as JSON has the elements of the array", "statement": "When a Postgres array of booleans, integers or texts is dumped as JSON, the field is a JSON array with the same elements in the same order; reading the text of an array never crashes.", "quantifier": "every array with any elements (quotes, braces, backslashes, the word NULL, missing elements), with any lower bound, in either of the ways Postgres may write it; every text for the absence of crashes", "why_tests_cant": "The parser is a hand-written scanner with gotos, counters per dimension and a division by a counter; elements are arbitrary texts that pass through two layers of escaping.", "anchors": ["internal/pqarray/pqarray.go: parseArray, scanLinearArray, StringArray.scanBytes, Int64Array.scanBytes, BoolArray.scanBytes, appendArrayQuotedBytes", "ddl/dump_cmd.go: dumpCSV"]}
{"id": "C82", "title": "The schema files of a dump recreate the schema", "statement": "Loading schema.sql, indexes.sql and constraints.sql of a dump, in this order, into a database without tables succeeds and creates exactly the schemas, tables, columns, constraints and indexes that were dumped.", "quantifier": "every catalog of an existing Postgres, MySQL or SQL Server database whose names and expressions can be written: any number of schemas, tables, keys, checks, indexes and foreign keys between them, in any order, and any list of schemas already present", "why_tests_cant": "Whether the files load depends on the order of all statements relative to all keys and names of the catalog, and on comments and statements that are composed from arbitrary names; a test loads a few fixed databases.", "anchors": ["ddl/dump_cmd.go: dumpSchema, dumpIndexes, dumpConstraints, writeCreateTable", "ddl/load_cmd.go: loadDir"]}
{"id": "C83", "title": "Directories and archives are loaded as documented", "statement": "When load reports success, every file given as an argument has been loaded in the order given, and for a directory or archive schema.sql has been run first if it exists, then all top-level CSV files have been loaded, then indexes.sql and then constraints.sql have been run; when it fails it has done a beginning of this; and it does not fail without a reason.", "quantifier": "every list of arguments, every contents of directories and archives (any names and order of the entries, with or without a directory around them) and every failure of a script or CSV file", "why_tests_cant": "Which entries are top-level files depends on the exact form of all their names and on their order in the archive; a test has one archive made by one program.", "anchors": ["ddl/load_cmd.go: LoadCmd.Run, loadZip, loadTgz, loadDir", "sqddl.md: load"]}
{"id": "C84", "title": "Load loads what dump has written", "statement": "Loading the directory, zip archive or tgz archive that dump has written loads the rows of every table that was dumped, and nothing else, and runs the scripts of the schema.", "quantifier": "every list of tables with any schema and table names, every choice of -schema-only and -data-only, every kind of output and whatever the output directory had before", "why_tests_cant": "The names of files are made of arbitrary names of tables, and the directory may have any contents.", "anchors": ["ddl/dump_cmd.go: dumpZip, dumpTgz, dumpDir", "ddl/load_cmd.go: loadZip, loadTgz, loadDir"]}
{"id": "C85", "title": "A CSV file is loaded completely or not at all, also when several are loaded at once", "statement": "Whatever calls fail and whenever the process stops, the database has all rows of a CSV file or none; the files that were loaded without an error are there; and a file fails only if the database fails or the load is cancelled.", "quantifier": "every number of files and INSERT statements, every interleaving of the goroutines, every failure, cancellation and moment at which the process stops", "why_tests_cant": "It is about all interleavings of goroutines and failures in between; the tests load archives only into SQLite, where nothing is concurrent.", "anchors": ["ddl/load_cmd.go: loadCSV, loadZip, loadTgz, loadDir"]}
{"id": "C86", "title": "A live database is read into the catalog as it is", "statement": "Reading a live database succeeds and gives exactly the tables that were asked for, in their order, with their columns, constraints and indexes, the flags that columns get from constraints, and nothing of any other table.", "quantifier": "every database of every dialect (any schemas, tables, names, constraints and indexes) and every list of included and excluded schemas and tables", "why_tests_cant": "The tests compare a few fixed schemas; the claim is about all names, kinds of tables, constraints and filters, of which many combinations make the reader panic or leave something out.", "anchors": ["ddl/database_introspector.go: WriteCatalog, GetTables, GetColumns, GetConstraints, GetIndexes", "ddl/introspection_scripts/*_tables.sql, *_columns.sql, *_constraints.sql, *_indexes.sql", "ddl/catalog_cache.go"]}
{"id": "C87", "title": "The default of a column of a live database is dumped as the default it is", "statement": "What is read for the default of a column and written after DEFAULT in a dump is accepted by the database there and gives the column the default that it has; a column without default gets none.", "quantifier": "every default (any text value and any expression of balanced tokens) of every dialect", "why_tests_cant": "The tests have a handful of defaults; whether a text is a literal, an expression or a value is decided by its first and last byte, so that infinitely many texts are taken for something else.", "anchors": ["ddl/database_introspector.go: GetColumns", "ddl/ddl.go: isLiteral, wrapBrackets, unwrapBrackets, wrappedInBrackets", "ddl/dump_cmd.go: writeColumnDefinition", "ddl/introspection_scripts/*_columns.sql"]}
{"id": "C88", "title": "A column of a live database is dumped with the type it has", "statement": "The type that is read for a column (or its enum or domain) and written in a dump is read by the same database as the type of the column: the same name in the same schema, the same arguments, an array if it is one.", "quantifier": "every type of Postgres (built in, of extensions and users, enums, domains, arrays, any arguments) and SQL Server, every text of a type of MySQL and SQLite", "why_tests_cant": "Types are user-definable and their names and arguments are unbounded; the reader cuts them at the first and last bracket, changes their case and replaces some names, so only a proof over all names, arguments and combinations shows which types survive.", "anchors": ["ddl/database_introspector.go: GetColumns", "ddl/ddl.go: normalizeColumnType", "ddl/dump_cmd.go: writeColumnDefinition", "ddl/introspection_scripts/postgres_columns.sql", "ddl/introspection_scripts/sqlserver_columns.sql"]}
{"id": "C89", "title": "The version of every server is read", "statement": "The version numbers are read from the version that the server reports, whatever distribution or build it names behind the numbers; no version is read as another one.", "quantifier": "every list of version numbers and every text behind them that servers of the dialect may report", "why_tests_cant": "Tests see the versions of the few servers they run on; vendors put arbitrary text behind the numbers, and every command that reads the database fails if it is not understood.", "anchors": ["ddl/database_introspector.go: GetVersionNums, GetVersion, WriteCatalog"]}
{"id": "C90", "title": "A filter selects exactly the tables that it names", "statement": "The conditions that the filter puts into the queries of the catalog are understood by the database as a selection of exactly the schemas and tables that the filter lists or does not exclude, whatever characters their names contain.", "quantifier": "every dialect, filter and name of a schema and a table", "why_tests_cant": "Tests use harmless names; whether a name is read back as itself depends on the quoting rules of each database.", "anchors": ["ddl/database_introspector.go: mklist, Filter, queryContext", "ddl/introspection_scripts/*_tables.sql"]}
{"id": "C91", "title": "The commands connect to the database that the URL names", "statement": "For every database URL in one of the documented forms, NormalizeDSN gives the dialect of the form, and a data source name from which the driver reads exactly the user, the password, the address and the database of the URL, all parameters of the URL with their values, and in addition only the settings that sqddl relies on and that the URL does not give (foreign keys of SQLite, sslmode of Postgres, parseTime, multiStatements and allowAllFiles of MySQL, the database of SQL Server). The same holds if file: names a file that holds the URL, or a SQLite database, including one that does not exist yet.", "quantifier": "for all users, passwords, hosts, ports, database names, paths and parameters (with percent escapes), all eight forms of URL, and all contents of the file", "why_tests_cant": "Passwords and names are arbitrary text that passes through two unescapings, a rebuilding of the text and the parser of a driver; a wrong reading shows up only for particular characters, and then as a connection to another database.", "anchors": ["ddl/ddl.go:978-1062", "drivers/ddlsqlite3/ddlsqlite3.go:17-29", "drivers/ddlpgx/ddlpgx.go:26-36", "drivers/ddlmysql/ddlmysql.go:25-73", "drivers/ddlsqlserver/ddlsqlserver.go:27-43", "sqddl.md:63-137"]}
{"id": "C92", "title": "Migrations of SQLite databases keep the rows of what they do not drop", "statement": "If a generated SQLite migration is run and accepted, then every table of the database that is not to be dropped has afterwards exactly the rows that it had, in the same order, with the same values in all columns that are not to be dropped and that are not computed. Without -drop-objects this holds for all tables and columns of the database, including those that neither catalog has.", "quantifier": "for all pairs of catalogs with unique names, both settings of -drop-objects, all contents of the database, all foreign keys with all actions in the database and in the new tables, foreign keys checked or not, and whatever else the database refuses", "why_tests_cant": "The rows of other tables are deleted by foreign key actions that fire when a table is rebuilt; the tests compare the text of the migrations and never have rows in a database, and whether rows are lost depends on which tables refer to each other and on what they contain.", "anchors": ["ddl/sqlite_migration.go:28-245", "ddl/sqlite_migration.go:247-375", "ddl/sqlite_migration.go:377-453", "drivers/ddlsqlite3/ddlsqlite3.go:17-29"]}
{"id": "C93", "title": "Migrations of SQLite databases keep the triggers", "statement": "If generate reads the triggers of a SQLite database and succeeds, and its migration is run and accepted, then every trigger whose table is not to be dropped exists afterwards with exactly the text that it had, provided that the destination also has it or has no triggers of that table (as table structs never have). Without -drop-objects this holds for all triggers.", "quantifier": "for all pairs of catalogs with unique names, all triggers with all texts, all orders in which they are read, reading that breaks off after any number of rows, and whatever the database refuses", "why_tests_cant": "A trigger is lost only if its table is rebuilt and it was not in the catalog, for instance because the connection broke while the last rows were read; no test makes the reading of rows fail half way.", "anchors": ["ddl/database_introspector.go:1306-1389", "ddl/database_introspector.go:215-237", "ddl/catalog_cache.go:649-662", "ddl/sqlite_migration.go:377-453", "ddl/introspection_scripts/sqlite_triggers.sql"]}
{"id": "C94", "title": "A failed migration is reported with the line and the words of the database", "statement": "When a migration fails on PostgreSQL (lib/pq driver) or SQL Server, the user is shown the line of the script that the error is on, the text of the error, its detail and hint (or all the messages of the batch) exactly as the database gave them, and the program does not crash.", "quantifier": "for all scripts (any bytes, any length), all error reports that the database can make about them (any text, detail, hint, messages, any position from the first character to the end of input)", "why_tests_cant": "It depends on positions counted in characters against texts indexed in bytes, on the position just beyond the text, and on details that quote user data; a test tries single errors in ASCII scripts.", "anchors": ["drivers/ddlpostgres/ddlpostgres.go:38-63", "drivers/ddlsqlserver/ddlsqlserver.go:43-56", "ddl/migrate_cmd.go:506-515"]}
{"id": "C95", "title": "Global flags work before the subcommand as after it", "statement": "The flags -db and -history-table, in any of the ways flags can be written, have the same effect before the subcommand as directly after it: every subcommand accepts them, and it is run with the same flags, values and arguments in the same order.", "quantifier": "for all subcommands, all sequences of global flags with any values in any spelling, all flags and arguments of the subcommand (well-formed or not)", "why_tests_cant": "The forwarding recomputes the arguments from lengths; it has to be right for every spelling, value and number of flags, and values may look like flags or subcommands.", "anchors": ["main.go:44-79", "sqddl.md:51-53"]}
{"id": "C96", "title": "Exit status 0 means that something was done", "statement": "If sqddl exits with status 0, then a subcommand was run and succeeded, or the user asked for help.", "quantifier": "for all command lines and all behaviours of the subcommands", "why_tests_cant": "It is a claim about every command line, including misspelt ones.", "anchors": ["main.go:44-203"]}
{"id": "C97", "title": "Structs generated for views refer to the views and their columns", "statement": "The text that sqddl views writes is Go code that declares one struct for each view, no name being declared twice; by the rules for table and column names, the struct stands for the view, in its schema, and its fields stand for the columns of the view, in order.", "quantifier": "for all dialects, current schemas and lists of views", "why_tests_cant": "Names of views and columns are arbitrary texts; tests use lower-case names of one schema.", "anchors": ["ddl/view_structs.go:43-112", "ddl/table_structs.go:473-486", "sqddl.md:1099-1115"]}
{"id": "C98", "title": "With schema-qualified structs every table has its own struct", "statement": "With -schema-qualified-structs, different tables have structs of different names, and each struct stands for its table; nothing else is changed by the flag.", "quantifier": "for all catalogs with names that can be part of Go identifiers", "why_tests_cant": "There are arbitrarily many combinations of schema and table names.", "anchors": ["ddl/tables_cmd.go:154-173"]}
{"id": "C99", "title": "The file of structs is Go source of the right package", "statement": "After tables or views succeeded, the file is Go source that declares the structs, in the package that was named, or else in one named after the directory of the file.", "quantifier": "for all package names, file names and lists of structs", "why_tests_cant": "File and directory names are arbitrary; the tests write to a buffer with a fixed package name.", "anchors": ["ddl/tables_cmd.go:174-213", "ddl/views_cmd.go:124-168"]}
{"id": "C100", "title": "Sources and destinations are understood as documented", "statement": "A value of -src or -dest is a list, separated by commas, of database URLs, Go files, JSON files, and directories or archives with a top-level schema.json; each adds to the schema what its kind says, in order.", "quantifier": "for all lists of values, file systems, archives and databases", "why_tests_cant": "Names, passwords and archive listings are arbitrary; the tests use a few file names.", "anchors": ["ddl/generate_cmd.go:113-148", "ddl/generate_cmd.go:322-472", "ddl/ddl.go:918-929"]}
{"id": "C101", "title": "Several databases given as sources are combined", "statement": "When several databases are given as sources, reading them one after the other gives a schema with the tables of all of them; a table that is in several is as in the last one.", "quantifier": "for all dialects, lists of databases and filters", "why_tests_cant": "The positions kept in the cache depend on what was read before; tests read a single database into an empty catalog.", "anchors": ["ddl/database_introspector.go:46-267", "ddl/generate_cmd.go:117-123", "ddl/catalog_cache.go:27-111", "ddl/catalog_cache.go:418-481"]}
{"id": "C102", "title": "Extensions, enums, domains and routines of a live database are read as they are", "statement": "Reading a live database (DatabaseIntrospector.WriteCatalog) gives exactly the extensions, enums, domains and routines that the filter asks for, each once, in its schema and in the order of the database: enums with all labels and their comment, domains with type, collation, NOT NULL, default, names and expressions of the checks and the comment, routines with kind, identity arguments, result type, parameters, definition and comment.", "quantifier": "every database of the four dialects whose names are unique as the dialect demands (any number of schemas, enums, domains, routines, overloads, parameters and checks) and every filter", "why_tests_cant": "The tests introspect a few fixed databases (sakila) with the default filter; they need a running server and contain no aggregate, no domain without checks, no commented type, no routine without parameters and no two routines of the same name. The loss depends on the shape of the whole database: one aggregate anywhere makes everything unreadable, a procedure takes the parameters of a function of the same name.", "anchors": ["ddl/database_introspector.go:46-131", "ddl/database_introspector.go:838-951", "ddl/database_introspector.go:1140-1232", "ddl/introspection_scripts/postgres_enums.sql", "ddl/introspection_scripts/postgres_domains.sql", "ddl/introspection_scripts/postgres_routines.sql", "ddl/introspection_scripts/mysql_routines.sql", "ddl/introspection_scripts/sqlserver_routines.sql", "ddl/catalog_cache.go:137-326"]}
{"id": "C103", "title": "The extensions and types of a dumped Postgres database are created again", "statement": "If the schema.sql, indexes.sql and constraints.sql that dump writes for a Postgres database are loaded in this order into a database without types and tables, every statement is accepted, and afterwards the database has the extensions, exactly the enums with their labels in order and exactly the domains with type, NOT NULL, collation, default and all checks (names, expressions, validity) of the dumped one, and the tables with columns of these types.", "quantifier": "every Postgres database (any number of schemas, extensions, enums, labels, domains, checks, tables; any names and labels that Postgres allows; any acyclic use of types by domains and columns), and every target without types and tables, with any extensions and schemas", "why_tests_cant": "TestDumpCmd compares the dump of one sakila database with a golden file and never loads it; sakila has one enum and one domain (with a check, based on integer). Whether the files can be loaded depends on the order in which all types use each other and on every label and check; a test covers one such database and needs a server.", "anchors": ["ddl/dump_cmd.go:200-224", "ddl/dump_cmd.go:623-720", "ddl/database_introspector.go:838-951", "ddl/introspection_scripts/postgres_domains.sql", "ddl/introspection_scripts/postgres_enums.sql"]}
{"id": "C104", "title": "Writing a catalog to another shares nothing with it", "statement": "After Catalog.WriteCatalog the source is as it was, and no change to the slices and maps of one of the two catalogs is visible in the other.", "quantifier": "every two catalogs that share nothing, with any number of objects of every kind", "why_tests_cant": "Each slice and map of each kind of object would have to be changed on either side, for every way in which the destination was filled before.", "anchors": ["ddl/catalog_cache.go: Catalog.WriteCatalog, cloneSlice, cloneMap"]}
{"id": "C105", "title": "Writing a catalog to an empty catalog copies objects of every kind", "statement": "Catalog.WriteCatalog with an empty destination gives a catalog with the same extensions, schemas, enums, domains, routines, views with their indexes and triggers, and tables with their columns, constraints, indexes and triggers, all attributes and order included.", "quantifier": "every catalog in which tables and views are named differently within a schema, routines differ in name, arguments or type, and the parts of a table or view in name, except for constraints without a name, as all those read from SQLite are", "why_tests_cant": "All catalogs.", "anchors": ["ddl/catalog_cache.go: Catalog.WriteCatalog, CatalogCache.GetOrCreate functions"]}
{"id": "C106", "title": "Writing a catalog again changes nothing", "statement": "Catalog.WriteCatalog to a catalog that already has the same contents succeeds and leaves it with these contents; nothing is doubled.", "quantifier": "every catalog in which tables and views are named differently within a schema, routines differ in name or arguments, and the parts of a table or view in name, except for constraints without a name", "why_tests_cant": "All catalogs; the tests only write to empty ones.", "anchors": ["ddl/catalog_cache.go: Catalog.WriteCatalog, NewCatalogCache, CatalogCache.GetOrCreate functions"]}
{"id": "C107", "title": "The views of a live database are read as they are", "statement": "When a catalog is read from a live database, every view that is not a view of the system and is admitted by the filter is in it, once and in its schema, with its columns in order, their types, which of them are enums, whether it is materialized, its comment and its text (up to line ends); no other view is in it; and the reading does not fail.", "quantifier": "for all databases with any number of schemas, tables and views, all four dialects, and all filters", "why_tests_cant": "the tests read one database with a handful of views whose names are lower case, without comments and with few columns; whether names are found again after being folded, lists split after being joined, and texts kept within limits depends on the names and sizes", "anchors": ["ddl/database_introspector.go:133-145", "ddl/database_introspector.go:1400-1494", "ddl/introspection_scripts/postgres_views.sql:1-90", "ddl/introspection_scripts/mysql_views.sql:1-37", "ddl/introspection_scripts/sqlite_views.sql:1-31", "ddl/introspection_scripts/sqlserver_views.sql:1-40", "ddl/catalog_cache.go:366-377"]}
{"id": "C108", "title": "The triggers of a live database come to their tables and views", "statement": "When a catalog is read from a live database, each table and each view in it has exactly the triggers that it has in the database, without those of constraints, in order, with their names, texts (up to line ends), comments and, in MySQL, timing and event; and the reading does not fail.", "quantifier": "for all databases with any number of schemas, tables, views and triggers, all four dialects, and all filters", "why_tests_cant": "the tests read one database per dialect without filters; whether each trigger finds its table depends on the letters in which it was written, on both lists of the filter and on whether the owner is a view", "anchors": ["ddl/database_introspector.go:215-237", "ddl/database_introspector.go:1306-1389", "ddl/introspection_scripts/postgres_triggers.sql:1-35", "ddl/introspection_scripts/sqlserver_triggers.sql:1-38", "ddl/introspection_scripts/sqlite_triggers.sql:1-20", "ddl/introspection_scripts/mysql_triggers.sql:1-28", "ddl/catalog_cache.go:651-662", "ddl/catalog_cache.go:758-769"]}
{"id": "C109", "title": "The schema.json that dump writes is read back as the same catalog", "statement": "Reading the text that dump writes to schema.json into an empty catalog gives the catalog that was dumped (up to the difference between nil and empty slices and maps), whether it lies in a file, in the directory of the dump or in an archive; and reading it as a destination gives it too, whatever dialect and current schema were taken over from the source, if it has its own.", "quantifier": "for all catalogs with any number of objects of every kind and any values in every field, whose texts are UTF-8", "why_tests_cant": "a test compares a few catalogs; here every text goes through an escaping writer and a reader with its own rules for characters, escapes, indentation and left-out fields, and the two have to agree for all of them", "anchors": ["ddl/dump_cmd.go:331-345", "ddl/dump_cmd.go:424-440", "ddl/dump_cmd.go:531-545", "ddl/generate_cmd.go:110-152", "ddl/generate_cmd.go:322-459", "ddl/ddl.go:52-564"]}
{"id": "C110", "title": "Several schema.json files are read as one catalog with the tables of all", "statement": "When two JSON files are given as sources or destinations, separated by a comma, the catalog has each table of each file as it is there.", "quantifier": "for all pairs of catalogs whose texts are UTF-8", "why_tests_cant": "the tests give one file; with two, the result depends on how the decoder fills a value that is there already, element by element and field by field", "anchors": ["ddl/generate_cmd.go:117-150", "ddl/generate_cmd.go:322-335", "ddl/ddl.go:52-564"]}
{"id": "C111", "title": "The data of a dump is every stored value of every table", "statement": "Without subset queries, dump asks one query for each table (virtual tables of SQLite excepted); the database reads its text as a query for exactly that table and exactly the columns that are not generated, in their order, and answers with all rows in the order of the primary key; the first line of the file has the names of these columns in the same order.", "quantifier": "for all catalogs, all dialects, all schemas, tables and columns whose names survive quoting, all states of the database", "why_tests_cant": "the tests dump a few tables with plain names; here texts are put together from any names, schemas, generated columns and keys, and what a database makes of every such text has to be compared with what was meant", "anchors": ["ddl/dump_cmd.go:252-292", "ddl/dump_cmd.go:842-850", "ddl/catalog_cache.go:773-782", "ddl/ddl.go:1081-1083"]}
{"id": "C112", "title": "A dump is the database as it was at one moment", "statement": "The rows of all tables in a dump are those of one state of the database, even if other connections commit transactions while the dump is made; in particular, if foreign keys hold in every state of the database, they hold in the dump.", "quantifier": "for all catalogs, all sequences of transactions that other connections commit before, between and after the queries, for archives (queries in order) and for directories (queries in any order)", "why_tests_cant": "tests dump a database that nobody writes to; the property is about all interleavings of the queries with other transactions", "anchors": ["ddl/dump_cmd.go:252-292", "ddl/dump_cmd.go:375-390", "ddl/dump_cmd.go:486-508", "ddl/dump_cmd.go:595-617", "ddl/dump_cmd.go:903-906"]}
{"id": "C113", "title": "load --timestamp-as-integer loads the second that a text denotes", "statement": "With --timestamp-as-integer, load turns every field of a TIMESTAMP, DATETIME or DATE column of an SQLite database that is a time string with a date (as SQLite defines them: a date, a date with minutes or with seconds and any fraction, with an optional time zone or Z) into the number of seconds between the beginning of 1970 and that time, counted on the Gregorian calendar, and leaves all other fields as they are. A time that dump wrote is loaded as the second it was in.", "quantifier": "for all texts, all dates (before and after 1970, leap years and centuries included), all times of day, all zones, all null strings and binary prefixes", "why_tests_cant": "A test tries some dates; the claim is that the conversion agrees with the calendar on every day of ten thousand years and that no other text is taken for a time, which needs a proof about the parser and the day arithmetic.", "anchors": ["ddl/load_cmd.go:329-339", "ddl/load_cmd.go:475-489", "ddl/dump_cmd.go:971-976"]}
{"id": "C114", "title": "A schema.json in another layout is read as the same catalog", "statement": "Whoever edits or reformats a schema.json changes nothing that sqddl sees: every RFC 8259 document that describes a catalog (members in any order, any white space, any way of writing the characters of a string including \\u escapes of either case and surrogate pairs, empty fields left out, written out or null, extra members with names of their own) is read as exactly that catalog.", "quantifier": "for all catalogs, all documents that describe them, files and directories as sources", "why_tests_cant": "There are infinitely many spellings of each catalog and each layer (blanks, escapes, order, omitted fields, unknown keys) interacts with the others; a test can only compare a few layouts.", "anchors": ["ddl/generate_cmd.go:322-375", "ddl/ddl.go:52-564"]}
{"id": "C115", "title": "A command has exactly the options that were written on its command line", "statement": "For every subcommand: a command line is accepted if and only if it consists of known options with sensible values, followed by file names, and gives every option that the help text calls required; each option then has the last value given for it (options that may be repeated collect all), or its documented default; lists are split at commas, times are read as durations, files keep their order. The order of different options and the way they are written (-f v, --f v, -f=v, --f=v) do not matter.", "quantifier": "for all subcommands and all argument lists, all results of number and duration parsing and of recognising database URLs", "why_tests_cant": "Argument lists are unbounded and the reading of each argument depends on the kind of the flag before it; acceptance, defaults and order independence for 12 flag sets are universal statements.", "anchors": ["ddl/migrate_cmd.go:87-152", "ddl/ls_cmd.go:61-102", "ddl/touch_cmd.go:58-96", "ddl/rm_cmd.go:45-82", "ddl/mv_cmd.go:47-86", "ddl/tables_cmd.go:58-110", "ddl/views_cmd.go:49-100", "ddl/generate_cmd.go:81-152", "ddl/wipe_cmd.go:40-73", "ddl/dump_cmd.go:108-176", "ddl/load_cmd.go:100-147", "ddl/automigrate_cmd.go:83-157", "ddl/ddl.go:1069-1077"]}
{"id": "C116", "title": "A load that fails names the records among which the wrong one is", "statement": "If loading a CSV file fails because the database refuses a record or because a record cannot be read, then the range of record numbers in the error (record i to j) contains the number of such a record, counted from 1 without the header; no record before the range is wrong, and the range is at most -batchsize records long.", "quantifier": "for all tables, key and identity columns, dialects, batch sizes, record lists and databases that refuse an INSERT exactly if they refuse one of its records", "why_tests_cant": "Where the failing statement begins depends on the number of columns, the parameter limit of the dialect and -batchsize together; a test has small files that fit one batch, the wrong ranges begin with the second batch of a wide table.", "anchors": ["ddl/load_cmd.go:163-165", "ddl/load_cmd.go:417-434", "ddl/load_cmd.go:498-522", "ddl/batch_insert.go:131-160", "ddl/batch_insert.go:318-401"]}
{"id": "C117", "title": "After a migration, AUTOINCREMENT gives no number a second time", "statement": "If a generated SQLite migration is run and accepted, then for every table that has the same AUTOINCREMENT column before and after it, the next row gets a number that is larger than all numbers that were ever given to rows of the table, also to rows that were deleted (this is what AUTOINCREMENT is for).", "quantifier": "for all pairs of catalogs with unique names, all contents of the database and all values of the counters, foreign keys checked or not, and whatever the database refuses", "why_tests_cant": "The counter is kept by the database outside of the tables and is only wrong when a table is rebuilt after its newest row was deleted; tests compare the text of migrations.", "anchors": ["ddl/sqlite_migration.go:247-375", "ddl/sqlite_migration.go:377-453"]}
{"id": "C118", "title": "A server is asked only for what its version has", "statement": "Whatever the version of the server is, the scripts that are sent to it use only system relations, columns, functions and words that this version has, so that reading its catalog (dump, generate, automigrate, tables, views, wipe) does not fail because of the version.", "quantifier": "for all products (SQLite, Postgres, MySQL, MariaDB, SQL Server), all version numbers with whatever distributions append to them, and all filters of object and constraint types", "why_tests_cant": "Tests run against the newest server of each kind; that another release lacks a column of a system table can only be seen by running it, for every release there is.", "anchors": ["ddl/database_introspector.go:46-237", "ddl/database_introspector.go:269-332", "ddl/wipe_cmd.go:96-239", "ddl/introspection_scripts/sqlite_tables.sql:1-26", "ddl/introspection_scripts/postgres_columns.sql:22-40", "ddl/introspection_scripts/mysql_constraints.sql:141-158", "ddl/introspection_scripts/mysql_indexes.sql:16-20", "ddl/introspection_scripts/postgres_routines.sql:4-19"]}
{"id": "C119", "title": "A column that fills itself is dumped as one that fills itself in the same way", "statement": "For a column of a live MySQL, MariaDB, Postgres or SQL Server database that is filled by the database (AUTO_INCREMENT, an identity with its first number and step, an expression that is stored or computed when it is read, ON UPDATE CURRENT_TIMESTAMP), what is read from the system tables and written as the definition of the column in a dump is a valid definition of a column that fills itself in exactly the same way; an ordinary column stays ordinary.", "quantifier": "for all database products, columns, identities, expressions, defaults and visibilities", "why_tests_cant": "The tests read the sample databases only, in which every ON UPDATE column also has DEFAULT CURRENT_TIMESTAMP, every identity starts with 1 and no expression begins and ends with separate brackets; how an attribute is shown depends on the product, the other attributes of the column and the text of the expression.", "anchors": ["ddl/introspection_scripts/mysql_columns.sql", "ddl/introspection_scripts/postgres_columns.sql", "ddl/introspection_scripts/sqlserver_columns.sql", "ddl/database_introspector.go:445-647", "ddl/dump_cmd.go:1170-1249", "ddl/ddl.go:642-650"]}
{"id": "C120", "title": "A subset query keeps every key it finds, and a key that is a time names its own instant", "statement": "When a subset query on a table whose primary key is a date or a time succeeds, there is one literal for every row the database found, none is missing because the connection broke off, and each literal names exactly the instant that the driver delivered for that row, as a text or as a time.", "quantifier": "for all dialects, time types, rows, texts and instants of the years 0 to 9999, and for queries that end or break off", "why_tests_cant": "No test subsets a table keyed by a time, and a connection that fails between two rows cannot be arranged against the sample databases; calendars, zones and fractions leave too many texts to try.", "anchors": ["ddl/subsetter.go:198-309", "ddl/sq.go:287-344"]}
{"id": "C121", "title": "Mistakes in struct tags are reported at their field and path, alike by the command and by the linter", "statement": "For every ddl tag of a column or of a table and every dialect, the struct parser reports exactly the mistakes of the tag (unknown modifiers, unknown values of onupdate and ondelete, missing columns or references, unreadable values, blank dialects), each under the path of modifiers that leads to it, and the command and the linter show each as struct, field, path and message.", "quantifier": "all lists of modifiers with any nesting, names, values and dialect prefixes, all five dialects, columns and tables; all names of structs and fields, paths and messages", "why_tests_cant": "The tests give each tag one mistake and compare the message; where the location is carried on from one modifier to the next depends on what came before it, and the tests of the linter have no percent sign in a tag, so wrong paths and garbled messages go unnoticed.", "anchors": ["ddl/struct_parser.go:401-436", "ddl/struct_parser.go:438-484", "ddl/struct_parser.go:486-588", "ddl/struct_parser.go:590-684", "ddl/struct_parser.go:686-856", "ddl/struct_parser.go:858-977"]}
{"id": "C122", "title": "A catalog that was read from a database is never a part of it", "statement": "If a catalog is read from a live database without an error, then every question that belongs to it (version, names, collation, extensions, enums, domains, routines, views, tables, columns, constraints, indexes, triggers, as far as the product has them and Filter.ObjectTypes includes them) was answered to the end, and every row of the answers was taken; a query that is refused or an answer that breaks off makes the reading fail.", "quantifier": "all five dialects, all lists of object types, all answers of the database to each query: refused, with any rows, broken off after any of them, with NULL or unreadable values", "why_tests_cant": "A connection that breaks down between two rows cannot be produced with a test database, and the tests read healthy databases only; each of the fourteen loops must ask for the error by itself.", "anchors": ["ddl/database_introspector.go:46-234", "ddl/database_introspector.go:269-304", "ddl/database_introspector.go:335-438", "ddl/database_introspector.go:1334-1388", "ddl/database_introspector.go:1499-1540"]}
{"id": "C123", "title": "Migrations that are generated one after the other are all kept and run in that order", "statement": "If generate is called several times without -prefix for the same directory, every file that any of the calls generated is still there with its content, and in the alphabetical order in which migrate runs the files those of an earlier call come before those of a later call.", "quantifier": "all numbers of calls, all times of the calls in the years 0 to 9999, all four products, all pairs of catalogs, with and without -drop-objects and -accept-warnings", "why_tests_cant": "The tests give a prefix, or look at the result of one call; that the text of the time sorts like the time across months, leap days and ends of years, and what happens within one second, concerns all pairs of times.", "anchors": ["ddl/generate_cmd.go:155-215", "ddl/generate_cmd.go:234-237", "ddl/migrate_cmd.go"]}
{"id": "C124", "title": "Binary values and arrays of them are read as they were written", "statement": "A binary value that is written for Postgres, in the hex format or for servers before 9.0 in the escape format, is a text that Postgres reads as this value, and is read back as the same bytes; every text of either format that Postgres writes, alone or as an element of an array, is read as the value it stands for, and any other text is an error.", "quantifier": "all byte strings, all server versions, all texts, all lists of byte strings and all ways to write an array of them", "why_tests_cant": "The package has no tests here; which of all texts are accepted, and that the texts of the two formats cannot be confused (a backslash before x), concerns infinitely many strings.", "anchors": ["internal/pqarray/pqarray.go:159-227", "internal/pqarray/pqarray.go:895-950", "internal/pqarray/pqarray.go:990-1011"]}
