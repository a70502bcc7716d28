{
 "claims": [
  {
   "property": "C01",
   "status": "proved",
   "theorems": [
    "C01_identifier_is_one_token"
   ],
   "note": ""
  },
  {
   "property": "C02",
   "status": "partial",
   "theorems": [
    "C02_refuted",
    "C02_refuted_special",
    "C02_denotes_name_partial",
    "C02_injective_partial"
   ],
   "note": "REFUTED as stated: EscapeQuote collapses a doubled quote that is followed by another byte, so a\"\"b and a\"b print alike; pseudo-table names fold to lower case on Postgres. Proved: all other names denote themselves exactly when they contain no doubled closing quote followed by a byte."
  },
  {
   "property": "C03",
   "status": "partial",
   "theorems": [
    "C03_string_literal",
    "C03_refuted_mysql",
    "C03_refuted_mysql_injection",
    "C03_mysql_partial",
    "C03_refuted_sqlserver",
    "C03_sqlserver_partial"
   ],
   "note": "Proved without restriction for SQLite and Postgres. REFUTED as stated for MySQL (backslashes are not escaped) and SQL Server (CONCAT with one argument); proved there for strings without backslash, respectively strings that are not a single line break and have at most 126 line breaks."
  },
  {
   "property": "C04",
   "status": "proved",
   "theorems": [
    "C04_bytes",
    "C04_int",
    "C04_bool",
    "C04_total"
   ],
   "note": ""
  },
  {
   "property": "C05",
   "status": "partial",
   "theorems": [
    "C05_refuted",
    "C05_refuted_adjacent",
    "C05_substitution_partial",
    "C05_accepted_is_tokenized",
    "C05_no_arguments"
   ],
   "note": "REFUTED as stated: a marker directly followed by a string literal is written after the literal, and a marker directly followed by another marker hides it. Proved for queries in which no marker is directly followed by a quoted token or marker. Comments and dollar quoting are not tokens of the specification because the code does not know them. Parameter names are ASCII in the model."
  },
  {
   "property": "C06",
   "status": "partial",
   "theorems": [
    "C06_refuted",
    "C06_no_panic_partial"
   ],
   "note": "REFUTED as stated: on SQLite too few arguments for anonymous markers index out of range. Proved for all other dialects, and for SQLite when there are at least as many arguments as question marks."
  },
  {
   "property": "C07",
   "status": "proved",
   "theorems": [
    "C07_length",
    "C07_prefix_and_suffix",
    "C07_fits"
   ],
   "note": ""
  },
  {
   "property": "C08",
   "status": "partial",
   "theorems": [
    "C08_refuted_separator",
    "C08_refuted_truncation",
    "C08_injective_partial"
   ],
   "note": "REFUTED as stated: an underscore inside a column name collides with two columns, and truncation makes long names collide. Proved for names without spaces and underscores whose joined length is at most 57 bytes."
  },
  {
   "property": "C09",
   "status": "partial",
   "theorems": [
    "C09_lossless",
    "C09_refuted",
    "C09_refuted_merge",
    "C09_exact_partial"
   ],
   "note": "Losslessness is proved for every input. REFUTED as stated for the cuts: string literals inside brackets are not recognised. Proved exact when no string literal occurs inside brackets."
  },
  {
   "property": "C10",
   "status": "partial",
   "theorems": [
    "C10_refuted",
    "C10_panic_iff",
    "C10_total_partial"
   ],
   "note": "REFUTED as stated: a type text with a closing but no opening bracket panics; the theorem C10_panic_iff characterises all crashing inputs, everything else is total."
  },
  {
   "property": "C11",
   "status": "partial",
   "theorems": [
    "C11_refuted_type_mysql",
    "C11_refuted_type_panic",
    "C11_refuted_default",
    "C11_type_stable_partial",
    "C11_default_stable_partial",
    "C11_brackets_stable",
    "C11_refuted_brackets"
   ],
   "note": "REFUTED as stated: MySQL SIGNED SIGNED, a closing bracket left in the type name, and Postgres casts of 1 and 0. Proved for types whose normal form has no closing bracket (MySQL: and that do not contain SIGNED) and for defaults (Postgres: without a cast)."
  },
  {
   "property": "C12",
   "status": "proved",
   "theorems": [
    "C12_lexicographic",
    "C12_complementary",
    "C12_irreflexive",
    "C12_transitive",
    "C12_total",
    "C12_monotone",
    "C12_single_number"
   ],
   "note": ""
  },
  {
   "property": "C51",
   "status": "partial",
   "theorems": [
    "C51_spellings_equal",
    "C51_only_synonyms",
    "C51_refuted_suffix"
   ],
   "note": "REFUTED as stated for types with arguments: the text after the closing bracket is dropped, so VARCHAR(255)[] equals VARCHAR(255) and DECIMAL(10,2) UNSIGNED equals DECIMAL(10,2). Proved for all type names without arguments, and for a table of usual spellings with arguments."
  },
  {
   "property": "C14",
   "status": "proved",
   "theorems": [
    "C14_selection",
    "C14_migrate"
   ],
   "note": ""
  },
  {
   "property": "C15",
   "status": "proved",
   "theorems": [
    "C15_success_is_committed"
   ],
   "note": ""
  },
  {
   "property": "C16",
   "status": "proved",
   "theorems": [
    "C16_batch",
    "C16_whole_groups",
    "C16_all_or_nothing"
   ],
   "note": "C16_batch and C16_whole_groups hold for every run and every crash point; C16_all_or_nothing states the claim per documented group for runs whose history lookup is understood by the database (see C17)."
  },
  {
   "property": "C17",
   "status": "partial",
   "theorems": [
    "C17_refuted_duplicate_argument",
    "C17_refuted_quote_in_name",
    "C17_refuted_truncated_read",
    "C17_never_again_partial"
   ],
   "note": "REFUTED as stated: a file named twice on the command line, a file name with two quotes (or a MySQL backslash) that the history query misquotes, and a history read that breaks off (the error of the row iteration is not checked) each make a successful migration run again. Proved for every sequence of runs and crashes without these three."
  },
  {
   "property": "C18",
   "status": "partial",
   "theorems": [
    "C18_refuted_quote_in_name",
    "C18_executed_iff_changed_partial"
   ],
   "note": "REFUTED as stated for file names that the history query misquotes. Proved for all other names and complete history reads."
  },
  {
   "property": "C19",
   "status": "proved",
   "theorems": [
    "C19_stops",
    "C19_prefix",
    "C19_complete",
    "C16_whole_groups"
   ],
   "note": "C19_stops and C16_whole_groups hold for every run; C19_prefix and C19_complete identify the list with the documented pending list for runs whose history lookup is understood by the database (see C17)."
  },
  {
   "property": "C20",
   "status": "proved",
   "theorems": [
    "C20_transaction",
    "C20_undo_outside",
    "C20_groups",
    "C16_whole_groups"
   ],
   "note": ""
  },
  {
   "property": "C21",
   "status": "partial",
   "theorems": [
    "C21_refuted_base_above_max",
    "C21_attempts",
    "C21_waits_partial"
   ],
   "note": "REFUTED as stated: with BaseDelay above MaxDelay the waits exceed MaxDelay. The bound on the attempts is proved for every run; the bounds on the waits when BaseDelay is at most MaxDelay."
  },
  {
   "property": "C22",
   "status": "partial",
   "theorems": [
    "C22_refuted_begin_timeout",
    "C22_refuted_small_delay",
    "C22_refuted_many_attempts",
    "C22_no_panic_partial"
   ],
   "note": "REFUTED as stated: a lock timeout when beginning a transaction indexes the batch at -1, a base delay below half a second and many attempts make the argument of the random number generator non-positive. Proved for all other settings and replies."
  },
  {
   "property": "C23",
   "status": "partial",
   "theorems": [
    "C23_refuted_single_statement",
    "C23_undo_runs_partial"
   ],
   "note": "REFUTED as stated: the undo script of a script that consists of a single statement is not run. Proved for all other scripts."
  },
  {
   "property": "C29",
   "status": "partial",
   "theorems": [
    "C29_refuted_commit_error",
    "C29_crash_recovery_partial"
   ],
   "note": "REFUTED as stated when a commit takes effect although an error is returned: the success rows are then overwritten and the scripts run again. Proved for any number of kills at any point without such a reply."
  },
  {
   "property": "C30",
   "status": "partial",
   "theorems": [
    "C30_refuted_race",
    "C30_one_after_the_other_partial"
   ],
   "note": "REFUTED as stated: nothing locks the history between reading it and applying scripts. Proved for runs that do not overlap."
  },
  {
   "property": "C52",
   "status": "partial",
   "theorems": [
    "C52_refuted_shared_prefix",
    "C52_refuted_hidden",
    "C52_with_directory_partial",
    "C52_relative_partial"
   ],
   "note": "REFUTED as stated: a name that begins with the name of the directory loses it, and a leading dot is removed. Proved for all other names."
  },
  {
   "property": "C53",
   "status": "partial",
   "theorems": [
    "C53_refuted_history_timeout",
    "C53_once_partial",
    "C19_prefix",
    "C16_whole_groups"
   ],
   "note": "REFUTED as stated: a lock timeout while recording a single-statement script outside a transaction repeats the script. Proved for scripts in transactions and for runs without lock timeouts."
  },
  {
   "property": "C54",
   "status": "partial",
   "theorems": [
    "C54_refuted_ambiguous_write",
    "C54_undo_records_failure_partial"
   ],
   "note": "REFUTED as stated when the success row is written although an error is returned and the failure row then cannot be written. Proved: the last operation of a run that executed an undo script records the failure."
  },
  {
   "property": "C55",
   "status": "partial",
   "theorems": [
    "C55_refuted",
    "C55_second_run_does_nothing_partial"
   ],
   "note": "REFUTED as stated for a file named twice on the command line (and the other cases of C17). Proved for all other runs."
  },
  {
   "property": "C31",
   "status": "partial",
   "theorems": [
    "C31_delivery_partial",
    "C31_prepared_partial",
    "C31_refuted_batchsize",
    "C31_refuted_repeated_key",
    "C31_refuted_columns"
   ],
   "note": "REFUTED as stated: a negative batch size (documented to mean 500) and a repeated key column panic, and with more columns than half of the parameter limit a statement without rows is sent. Proved for all other configurations (on SQL Server with identity columns among the keys), wherever the database or the iterator fails."
  },
  {
   "property": "C32",
   "status": "partial",
   "theorems": [
    "C32_limits_partial",
    "C32_refuted"
   ],
   "note": "REFUTED as stated: with more columns than half of the parameter limit (SQL Server: 1051) the batch has no rows. Proved for all other configurations."
  },
  {
   "property": "C33",
   "status": "partial",
   "theorems": [
    "C33_upsert_partial",
    "C33_insert",
    "C33_refuted_identity",
    "C33_refuted_only_identity"
   ],
   "note": "REFUTED as stated on SQL Server for identity columns that are not keys: they are not taken over, and if there is no other column the UPDATE is not SQL. Proved for all other configurations of C31 with names that quoting preserves, for every table and batch boundary, through the text of the statements."
  },
  {
   "property": "C56",
   "status": "partial",
   "theorems": [
    "C56_sequences_partial",
    "C56_refuted"
   ],
   "note": "REFUTED as stated: the column name is passed with its quotes, so the sequence of a column that needs quotes is not found. Proved for other columns."
  },
  {
   "property": "C57",
   "status": "partial",
   "theorems": [
    "C57_identity_insert_partial",
    "C57_refuted"
   ],
   "note": "REFUTED as stated: after an error IDENTITY_INSERT stays on. Proved for successful batch inserts."
  },
  {
   "property": "C24",
   "status": "partial",
   "theorems": [
    "C24_touch_only_records",
    "C24_migrate_does_nothing_partial",
    "C24_refuted"
   ],
   "note": "REFUTED as stated: a script whose name contains two consecutive quotes is executed by migrate after touch. Proved for names that the database reads back, lists without duplicates and complete query results; that touch executes nothing and leaves other rows alone is proved unconditionally."
  },
  {
   "property": "C25",
   "status": "proved",
   "theorems": [
    "C25_checksums"
   ],
   "note": "For every list of names; names in the history table are unique."
  },
  {
   "property": "C26",
   "status": "partial",
   "theorems": [
    "C26_rm_makes_pending_partial",
    "C26_other_rows_partial",
    "C26_refuted"
   ],
   "note": "REFUTED as stated: rm of a script whose name contains two consecutive quotes reports success and removes nothing. Proved for all names that the database reads back."
  },
  {
   "property": "C27",
   "status": "partial",
   "theorems": [
    "C27_refuted",
    "C27_refuted_every_error",
    "C27_renamed_partial",
    "C27_state_moves_along_partial",
    "C27_other_rows_partial",
    "C27_lookup_error_partial"
   ],
   "note": "REFUTED as stated: mv reports success whatever error the UPDATE returns, for instance when the destination already has a row. Proved: the row is renamed whenever the database executes the statement."
  },
  {
   "property": "C28",
   "status": "proved",
   "theorems": [
    "C28_ls_shows_what_migrate_runs",
    "C28_with_flags",
    "C28_written_histories"
   ],
   "note": "For runs in which the history queries deliver all their rows (a broken query is C59_refuted). Every script executed by any run is shown; a successful run without database errors executes exactly the shown ones in this order."
  },
  {
   "property": "C58",
   "status": "proved",
   "theorems": [
    "C58_touch_is_atomic"
   ],
   "note": "An error reply leaves open whether a commit took effect."
  },
  {
   "property": "C59",
   "status": "partial",
   "theorems": [
    "C59_statuses_partial",
    "C59_refuted"
   ],
   "note": "REFUTED as stated: rows.Err is not consulted, so a query that breaks off makes applied scripts pending. Proved for complete query results and names that the database reads back."
  },
  {
   "property": "C60",
   "status": "partial",
   "theorems": [
    "C60_missing_partial",
    "C60_refuted"
   ],
   "note": "REFUTED as stated: a script whose name contains two consecutive quotes is shown as missing although it is there. Proved for names that the database reads back."
  },
  {
   "property": "C13",
   "status": "partial",
   "theorems": [
    "C13_total",
    "C13_raw_total",
    "C13_round_trip_partial",
    "C13_refuted"
   ],
   "note": "REFUTED as stated: after a first modifier of one character no blank is printed, and the dialects of a modifier are not printed. Proved for all other lists, with texts whose braces are balanced, at every depth; that parsing ends without a panic is proved for every text."
  },
  {
   "property": "C61",
   "status": "partial",
   "theorems": [
    "C61_unquoted",
    "C61_unclosed",
    "C61_quoted_partial",
    "C61_refuted"
   ],
   "note": "REFUTED as stated: the last character is cut off whatever it is, so {abc}def is read as abc}de. Proved when the closing brace ends the value."
  },
  {
   "property": "C34",
   "status": "partial",
   "theorems": [
    "C34_lookups_partial",
    "C34_refuted"
   ],
   "note": "REFUTED as stated: a table that is ignored and created again, or replaced by one with fewer columns, leaves positions in the cache at which the next lookup panics, and get-or-create takes constraints without a name for the same. Proved for all other sequences of calls: they have the effect they would have without a cache, and all lookups are right (except for the empty constraint name)."
  },
  {
   "property": "C62",
   "status": "partial",
   "theorems": [
    "C62_keys_partial",
    "C62_refuted"
   ],
   "note": "REFUTED as stated: AddOrUpdateConstraint does not update the lists of keys when the type of a constraint changes. Proved when types do not change (and the conditions of C34 hold)."
  },
  {
   "property": "C63",
   "status": "partial",
   "theorems": [
    "C63_copy_partial",
    "C63_refuted"
   ],
   "note": "REFUTED as stated: the flag of virtual tables is not copied and constraints without a name are merged. Proved for all other catalogs."
  },
  {
   "property": "C35",
   "status": "proved",
   "theorems": [
    "C35_no_changes",
    "C35_no_changes_sqlite"
   ],
   "note": "For catalogs whose names are distinct, whose keys have names and whose types can be read; the definition of C35 leaves open what well-formed means. SQLite compares keys by generated names, so instead of distinct constraint names it needs that constraints of the same compared name are ignored alike."
  },
  {
   "property": "C36",
   "status": "partial",
   "theorems": [
    "C36_no_data_lost",
    "C36_indexes_recreated",
    "C36_constraints_recreated_partial",
    "C36_refuted"
   ],
   "note": "REFUTED as stated: on SQL Server a foreign key that was dropped because its column changes is not added again if a new foreign key joins the same tables (or the program panics), and on MySQL a primary key with the name of a foreign key replaces it. Proved for all catalogs: no schema, table or column is dropped, and indexes are created again; foreign keys and other constraints under the stated conditions. Undo files are not counted."
  },
  {
   "property": "C37",
   "status": "partial",
   "theorems": [
    "C37_schemas",
    "C37_tables",
    "C37_columns",
    "C37_sqlite_partial",
    "C37_refuted"
   ],
   "note": "REFUTED as stated: if there is no schema in the source, SQLite creates tables that are to be ignored. Proved for the other dialects, and for SQLite when both catalogs have a schema."
  },
  {
   "property": "C38",
   "status": "partial",
   "theorems": [
    "C38_dropped_partial",
    "C38_sqlite_partial",
    "C38_refuted"
   ],
   "note": "REFUTED as stated in every dialect: a superfluous column is kept if the table has no other difference. Proved for tables with an added column, an added or dropped index or a changed nullability, and nothing else is dropped."
  },
  {
   "property": "C39",
   "status": "partial",
   "theorems": [
    "C39_partial",
    "C39_column_refuted",
    "C39_default_refuted",
    "C39_identity_refuted",
    "C39_drop_identity_refuted",
    "C39_deferrable_refuted",
    "C39_renamed_refuted",
    "C39_notnull_refuted",
    "C39_index_refuted",
    "C39_sqlite_partial",
    "C39_sqlite_column_refuted",
    "C39_sqlite_type_refuted",
    "C39_sqlite_reference_refuted",
    "C39_sqlite_copy_refuted",
    "C39_sqlite_target_refuted",
    "C39_sqlite_added_refuted",
    "C39_sqlite_index_refuted",
    "C39_sqlite_new_refuted"
   ],
   "note": "REFUTED as stated: superfluous columns of otherwise unchanged tables stay (all dialects); Postgres: changed defaults that are not literals, identities together with NOT NULL, deferrable unique constraints and renamed keys with references; SQL Server: NOT NULL is never set, indexes with two changed columns are dropped twice; SQLite: types in lower case are rebuilt each time, columns with a foreign key as table constraint cannot be dropped, tables without a common column cannot be copied, a foreign key that refers to another table is not noticed, some new columns are refused if the table has rows, an index that moves to an earlier table, a table that is called like the copy. Proved for MySQL, Postgres and SQLite and catalogs without these (SpecApply.suitable, SpecLite.lite_suitable): the migration is generated, runs, the database then agrees with the destination, it can be read, and generating again yields nothing. Missing: SQL Server, rows."
  },
  {
   "property": "C40",
   "status": "partial",
   "theorems": [
    "C40_order",
    "C40_owner_partial",
    "C40_refuted"
   ],
   "note": "REFUTED as stated: on Postgres foreign keys of tables that refer to each other are added to the table of the first one. The order is proved for all dialects, the owner for the others and for Postgres without such pairs."
  },
  {
   "property": "C41",
   "status": "partial",
   "theorems": [
    "C41_alphabetical_partial",
    "C41_refuted"
   ],
   "note": "REFUTED as stated: the number has two digits, so from the hundredth file on the order is wrong. Proved for fewer than a hundred files, for all catalogs."
  },
  {
   "property": "C42",
   "status": "partial",
   "theorems": [
    "C42_warned_partial",
    "C42_refuted"
   ],
   "note": "REFUTED as stated: no warning when the scale becomes 0, when an unlimited type gets a limit, or when a NOT NULL column without default is added. Proved for the other cases."
  },
  {
   "property": "C64",
   "status": "proved",
   "theorems": [
    "C64_keys_are_added"
   ],
   "note": "On SQL Server keys can get lost, see C64_not_on_sqlserver."
  },
  {
   "property": "C65",
   "status": "proved",
   "theorems": [
    "C65_run",
    "C65_undo"
   ],
   "note": "Names with dots can make migrate skip a file, see C65_not_plain."
  },
  {
   "property": "C43",
   "status": "proved",
   "theorems": [
    "C43_generate_warnings",
    "C43_generate_dry",
    "C43_automigrate_warnings",
    "C43_automigrate_dry",
    "C43_generate_dry_shows",
    "C43_automigrate_dry_shows"
   ],
   "note": "The commands are modelled from the point on where files and warnings are known, with a stream of outcomes for every write. Also proved: a successful dry run prints exactly the files that are not undo files."
  },
  {
   "property": "C66",
   "status": "proved",
   "theorems": [
    "C66_automigrate_runs"
   ],
   "note": "Combines the file names of the generators (C65) with the model of migrate (C19); the spelling of the statements is an arbitrary function. A script run outside a transaction may be executed again after a lock timeout, as documented for migrate."
  },
  {
   "property": "C67",
   "status": "proved",
   "theorems": [
    "C67_written",
    "C67_no_other_file",
    "C67_succeeds"
   ],
   "note": "The output directory is a text put before the name."
  },
  {
   "property": "C44",
   "status": "partial",
   "theorems": [
    "C44_value_partial",
    "C44_defaults_partial",
    "C44_same_value_partial",
    "C44_table_partial",
    "C44_refuted",
    "C44_statement_refuted",
    "C44_table_refuted"
   ],
   "note": "REFUTED as stated: text equal to the null string and empty binary values become NULL, fractions of seconds are lost, empty, NULL and escaped JSON arrays are not read by Postgres, a row of one empty text is lost, CRLF becomes LF, binary values of MySQL tables without primary key are loaded as text. Proved for all other values and for whole tables through the text of the file."
  },
  {
   "property": "C45",
   "status": "partial",
   "theorems": [
    "C45_names_partial",
    "C45_files_differ_partial",
    "C45_refuted"
   ],
   "note": "REFUTED as stated: names like 2020_data, _prisma_migrations and log.2020 are read as other tables, and two tables can share a file. Proved exactly which names come back."
  },
  {
   "property": "C68",
   "status": "partial",
   "theorems": [
    "C68_partial",
    "C68_refuted"
   ],
   "note": "REFUTED as stated: an underscore without a number is discarded as well. Proved for names that begin neither with an underscore nor with a dot."
  },
  {
   "property": "C69",
   "status": "partial",
   "theorems": [
    "C69_delivered_partial",
    "C69_refuted"
   ],
   "note": "REFUTED as stated: the loop over the rows ends silently when the connection breaks (rows.Err is not asked), and the dump reports success. Proved that all delivered rows are in the file."
  },
  {
   "property": "C46",
   "status": "partial",
   "theorems": [
    "C46_setting_partial",
    "C46_transaction_partial",
    "C46_once_partial",
    "C46_refuted"
   ],
   "note": "REFUTED as stated: on SQLite a script that ends inside a transaction makes the restoring PRAGMA do nothing. Proved for scripts that leave no transaction open, for every failing call and every outcome."
  },
  {
   "property": "C70",
   "status": "partial",
   "theorems": [
    "C70_integers_partial",
    "C70_quoted_partial",
    "C70_refuted",
    "C70_never_refuted"
   ],
   "note": "REFUTED as stated: on Postgres a lock_timeout other than 0 is reported with its unit and written back without quotes, which is no valid statement, so that a migration reports an error after it has been applied. Proved for all integers and for the time zone."
  },
  {
   "property": "C50",
   "status": "partial",
   "theorems": [
    "C50_refuted",
    "C50_fails_refuted",
    "C50_leaves_refuted",
    "C50_mysql_routines",
    "C50_postgres_views",
    "C50_wiped_partial",
    "C50_order_partial",
    "C50_dry_run",
    "C50_all_or_nothing"
   ],
   "note": "REFUTED as stated: with overloaded functions, views created by an extension, views with a space or dot in their name or aggregates (Postgres), functions without parameters (MySQL) and schema-bound views (SQL Server) the command fails and drops nothing; partitioned tables, views with upper case in their name and schemas named pg\u2026 (Postgres), procedures without parameters (MySQL), procedures named sp\u2026 (SQL Server) and tables named sqlite\u2026 (SQLite) are left behind. Proved: a database without such objects is wiped except for plpgsql, with one statement per object in the stated order; a dry run changes nothing and prints what would run; except in MySQL a failed wipe changes nothing."
  },
  {
   "property": "C71",
   "status": "partial",
   "theorems": [
    "C71_refuted",
    "C71_system_partial"
   ],
   "note": "REFUTED as stated: in MySQL the objects of all databases of the server are listed and dropped. Proved: every statement is about a listed object that is not one of the system."
  },
  {
   "property": "C47",
   "status": "partial",
   "theorems": [
    "C47_refuted",
    "C47_entered_twice_refuted",
    "C47_self_reference_refuted",
    "C47_intact_partial",
    "C47_complete_partial",
    "C47_selected"
   ],
   "note": "REFUTED as stated: each foreign key is followed only once, for the paths found so far, so that the city of a customer's billing address is missing when the customer has a shipping address too, and a table that refers to itself is never followed. Proved: selected rows are always dumped; if every query is plain and no table with foreign keys is entered twice, or the foreign keys form a tree around its table, exactly the needed rows are dumped and the dump is intact."
  },
  {
   "property": "C48",
   "status": "partial",
   "theorems": [
    "C48_refuted",
    "C48_terminates",
    "C48_once",
    "C48_joins_partial"
   ],
   "note": "REFUTED as stated: a foreign key to a table left out of the catalog by the filter makes the search dereference nil. Proved: the search always ends and visits no foreign key twice; if the catalog contains the tables referred to it finds connected paths without repeated tables, each with its joins."
  },
  {
   "property": "C49",
   "status": "partial",
   "theorems": [
    "C49_refuted",
    "C49_panics_refuted",
    "C49_expand_partial",
    "C49_meaning_partial",
    "C49_unclosed_partial",
    "C49_twice_partial"
   ],
   "note": "REFUTED as stated: a brace at the end, a missing {table}, a missing {*} or {*} after {table} panic. Proved: well-formed templates are expanded to the intended text or rejected, unclosed braces and repetitions are rejected except at the end and the beginning of the text."
  },
  {
   "property": "C72",
   "status": "proved",
   "theorems": [
    "C72_needed",
    "C72_keyed"
   ],
   "note": "For catalogs that contain the tables referred to; queries are syntax trees, see C73 and C74 for their text."
  },
  {
   "property": "C73",
   "status": "partial",
   "theorems": [
    "C73_refuted",
    "C73_fractions_refuted",
    "C73_ways_refuted",
    "C73_partial"
   ],
   "note": "REFUTED as stated: fractions of seconds are always lost or truncated, doubled quotes are collapsed, backslashes are not escaped in MySQL, Postgres keys other than numbers, booleans and character strings become text that cannot be compared with the column, and SQLite values are written by the type of the column instead of their own. Proved: all other values are written as literals with the same value. The conversions by database drivers and the texts of floats and times are taken as given."
  },
  {
   "property": "C74",
   "status": "partial",
   "theorems": [
    "C74_refuted",
    "C74_ways_refuted",
    "C74_rows_partial",
    "C74_needed_partial"
   ],
   "note": "REFUTED as stated: a query that selects nothing gives VALUES without rows, SQLite tables named pkey_ or queryN_ are hidden by the names of WITH, and a table whose columns all are generated gives a select without columns. Proved: otherwise, for names that survive quoting, the text is read by an independent lexer and parser as a query with exactly the rows of C47 and C72."
  },
  {
   "property": "C75",
   "status": "partial",
   "theorems": [
    "C75_partial",
    "C75_altered_refuted",
    "C75_ways_refuted"
   ],
   "note": "REFUTED as stated: Postgres names of altered columns are not quoted; strings in MySQL types are capitalised; spatial and hash indexes, clustered indexes, operator classes and MATCH FULL are lost or unreadable; NOT NULL before a MySQL expression, a default before a SQL Server collation, virtual SQLite columns, expressions such as (a) + (b) and tables without columns are misread. Proved: all other files of a migration, in all four databases, are read by an independent lexer and parser as exactly the statements of the migration. Not covered: the T-SQL block that drops a default, and objects with stored CREATE texts."
  },
  {
   "property": "C76",
   "status": "partial",
   "theorems": [
    "C76_refuted",
    "C76_partial"
   ],
   "note": "REFUTED as stated: a foreign key with submodifiers but without references, a type with a closing but no opening bracket, and two structs for the same table of which one is for another dialect crash the program. Proved: everything else ends with a catalog or reports, for all declarations and all tags."
  },
  {
   "property": "C77",
   "status": "partial",
   "theorems": [
    "C77_refuted",
    "C77_partial"
   ],
   "note": "REFUTED as stated: a modifier of a table that repeats a key for another database switches the key off. Proved: for modifiers of columns dropping those for other databases changes neither the catalog nor the reports. Missing: modifiers of tables that do not repeat a key."
  },
  {
   "property": "C78",
   "status": "partial",
   "theorems": [
    "C78_refuted",
    "C78_partial"
   ],
   "note": "REFUTED as stated: a foreign key on two columns that refers to one column is accepted. Proved: apart from the number of columns, accepted structs refer to existing columns and tables only, for all lists with one struct per table."
  },
  {
   "property": "C79",
   "status": "partial",
   "theorems": [
    "C79_refuted",
    "C79_partial"
   ],
   "note": "REFUTED as stated: a table called order-line gives a struct that is no Go code, and a backtick in a type ends the tag. Proved: for all catalogs whose tables and columns have names of letters, digits, underscores and blanks, and whose texts have balanced braces and no backticks."
  },
  {
   "property": "C80",
   "status": "partial",
   "theorems": [
    "C80_refuted",
    "C80_partial"
   ],
   "note": "REFUTED as stated: TIMESTAMP becomes DATETIME on MySQL, a nullable TEXT primary key of SQLite becomes NOT NULL, a Postgres default such as (1 + 2) * (3 + 4) loses its outer brackets, CHAR becomes CHAR(255) on SQL Server, and a reference to a column of the same name in another schema is read as a table that does not exist. Proved: for all catalogs without such types, defaults and references (SpecSame.v, expressible), in all four dialects."
  },
  {
   "property": "C81",
   "status": "partial",
   "theorems": [
    "C81_refuted",
    "C81_partial",
    "C81_never_wrong",
    "C81_no_crash",
    "C81_strict",
    "C81_values"
   ],
   "note": "REFUTED as stated: arrays with a missing element, arrays that start at another number than 1, and arrays of two dimensions are errors that end the dump. Proved: all other arrays of booleans, integers and texts give JSON that an independent reader reads as the same elements; an array that gives a field at all gives the right one; no text makes the parser crash; arrays written by the package are read as they were. Floats are left out (ParseFloat and the text of numbers)."
  },
  {
   "property": "C82",
   "status": "partial",
   "theorems": [
    "C82_refuted",
    "C82_refuted_valid",
    "C82_refuted_full",
    "C82_partial"
   ],
   "note": "REFUTED as stated: foreign keys are added schema by schema, so that one to a unique column of a later schema fails on Postgres and SQL Server; the sequence of a SERIAL column is not created; MySQL refuses a table with AUTO_INCREMENT on a unique key, which is added later; NOT VALID constraints come back valid; a table name with a line end breaks out of the comment it is written in. Proved: for all other catalogs of the three databases the three files are read by an independent lexer and parser and create the same database. Extensions, enums, domains and SQLite (stored texts) are left out."
  },
  {
   "property": "C83",
   "status": "partial",
   "theorems": [
    "C83_refuted",
    "C83_refuted_ignored",
    "C83_partial"
   ],
   "note": "REFUTED as stated: in an archive whose entries begin with ./ (tar czf x.tgz .) the CSV files are loaded but schema.sql, indexes.sql and constraints.sql are silently left out; a file with another suffix is silently ignored. Proved for archives with names without . and .. elements (with or without a surrounding directory of the archive's name, any other entries, in any order) and files called by what they are."
  },
  {
   "property": "C84",
   "status": "partial",
   "theorems": [
    "C84_refuted",
    "C84_refuted_old",
    "C84_refuted_same",
    "C84_partial"
   ],
   "note": "REFUTED as stated: the rows of a table with a slash in its name are in the archive but are not loaded (and no error is reported); CSV files of an earlier dump stay in the directory and are loaded as well; two tables whose file names agree (a.\"b.c\" and \"a.b\".c) leave one file. Proved for names without slashes, and for directories that were empty and file names that are all different."
  },
  {
   "property": "C85",
   "status": "partial",
   "theorems": [
    "C85_refuted",
    "C85_refuted_every",
    "C85_partial"
   ],
   "note": "REFUTED as stated: the CSV files of a zip archive are loaded (except in SQLite) by goroutines that all begin transactions on one connection; whether the driver joins, commits or refuses the second BEGIN, an interleaving leaves half of a file or fails for no reason. Proved for directories, tgz archives, SQLite and archives with one CSV file, for every interleaving, failure, cancellation and crash."
  },
  {
   "property": "C86",
   "status": "partial",
   "theorems": [
    "C86_refuted",
    "C86_refuted_panics",
    "C86_refuted_wrong",
    "C86_partitioned_left_out",
    "C86_refuted_filter",
    "C86_partial"
   ],
   "note": "REFUTED as stated: the reader panics on SQLite foreign keys without referenced columns, on shadow tables and partitioned tables with a key, on SQL Server indexes on a column with a comma and on a MySQL unique key and foreign key of one name; schemas like pgboss, columns of quoted SQLite tables and indexes that share a name with a constraint anywhere are left out; comments on validity stay in Postgres checks, names with capitals keep their quotes in indexes; exclusions are ignored beside inclusions, lists of empty names give an error. Proved for every database without these (names, constraints, indexes and filters otherwise arbitrary)."
  },
  {
   "property": "C87",
   "status": "partial",
   "theorems": [
    "C87_refuted",
    "C87_refuted_sqlite",
    "C87_refuted_sqlserver",
    "C87_refuted_postgres",
    "C87_refuted_values",
    "C87_refuted_expressions",
    "C87_refuted_numbers",
    "C87_partial"
   ],
   "note": "REFUTED as stated: SQLite 'a' || 'b' and (1)+(2) lose their brackets (syntax error); likewise ('a')+('b') in SQL Server and AND in Postgres; in MySQL DEFAULT '' is lost, the texts null, true, 'x', (x), 00501 and nan become words, numbers or expressions, and most expressions (uuid()) become texts. Proved for all defaults whose first and last byte do not mislead (all other expressions and values)."
  },
  {
   "property": "C88",
   "status": "partial",
   "theorems": [
    "C88_refuted",
    "C88_refuted_arrays",
    "C88_refuted_names",
    "C88_refuted_taken",
    "C88_refuted_sqlserver",
    "C88_refuted_mysql",
    "C88_partial"
   ],
   "note": "REFUTED as stated: Postgres arrays of types with arguments (varchar(255)[]) are dumped without the array, quoted names (\"char\", \"MyEnum\") in another case, domains of other schemas without the schema, a type called charactervarying as VARCHAR, and a type called a) panics; SQL Server nchar loses its length, datetime2(3) its precision, and geography becomes the name of the table; the values of MySQL enums are put in upper case. Proved for all other types of Postgres (built in and of users, with arguments or as arrays, enums and domains), SQL Server, MySQL and SQLite."
  },
  {
   "property": "C89",
   "status": "partial",
   "theorems": [
    "C89_refuted",
    "C89_refuted_mysql",
    "C89_refuted_postgres",
    "C89_partial",
    "C89_never_wrong",
    "C89_accepts"
   ],
   "note": "REFUTED as stated: MySQL releases with something behind the numbers that is not MariaDB (8.0.32-0ubuntu0.22.04.2, 5.7.44-log) and Postgres 16beta1 are refused, so that nothing can be read from such servers. Proved: all other releases are read, exactly the said ones are refused, and none is read wrongly."
  },
  {
   "property": "C90",
   "status": "partial",
   "theorems": [
    "C90_refuted",
    "C90_refuted_other",
    "C90_refuted_broken",
    "C90_refuted_inject",
    "C90_refuted_quotes",
    "C90_refuted_empty",
    "C90_partial",
    "C90_no_injection"
   ],
   "note": "REFUTED as stated: in MySQL a backslash in a name makes the filter select another table, breaks the query or lets names become part of the query; two quotes in a row are read as one; a list of empty names is a syntax error except in SQLite. Proved: all other filters are read as meaning exactly the tables they name, and without backslashes for MySQL no name becomes part of the query."
  },
  {
   "property": "C91",
   "status": "partial",
   "theorems": [
    "C91_refuted",
    "C91_refuted_password",
    "C91_refuted_user",
    "C91_refuted_three",
    "C91_refuted_slashes",
    "C91_refuted_database",
    "C91_refuted_instance",
    "C91_refuted_short",
    "C91_refuted_files",
    "C91_refuted_new",
    "C91_partial",
    "C91_file_partial",
    "C91_sqlite_partial"
   ],
   "note": "REFUTED as stated: a question mark in the password of a mysql:// URL breaks the name, a MySQL user called sqlite (or file) is taken for a scheme, sqlite3: is known but stays in the path, //path becomes relative, a SQL Server database behind a slash with escapes becomes the instance too and an empty one replaces ?database=, files of fewer than 16 bytes are refused whatever they hold, and a new SQLite database behind file: is used without foreign keys. Proved: all other URLs, files that hold them and existing SQLite files give the driver exactly what is written."
  },
  {
   "property": "C92",
   "status": "partial",
   "theorems": [
    "C92_refuted",
    "C92_refuted_cascade",
    "C92_refuted_set_null",
    "C92_refuted_self",
    "C92_refuted_fails",
    "C92_partial",
    "C92_unchecked_partial",
    "C92_keep_partial"
   ],
   "note": "REFUTED as stated: when a table is rebuilt (a column gets another type), DROP TABLE first deletes its rows, so that with the foreign keys that sqddl switches on, rows that refer to it ON DELETE CASCADE are deleted and SET NULL columns are emptied, also in the copy of a table that refers to itself; with NO ACTION the migration fails. Proved: without dropping objects no row or value is ever lost; otherwise none is lost if nothing with rows refers to what is dropped or rebuilt, or if foreign keys are not checked."
  },
  {
   "property": "C93",
   "status": "partial",
   "theorems": [
    "C93_refuted",
    "C93_refuted_lines",
    "C93_partial",
    "C93_keep_partial",
    "C93_same_statements"
   ],
   "note": "REFUTED as stated: GetTriggers does not ask whether reading the rows ended with an error, so that triggers that could not be read are dropped with their table when it is rebuilt; Windows line ends in the text of a trigger, also inside its string literals, become line feeds. Proved: if all triggers were read and have no Windows line ends, every trigger that is still asked for is there after the migration with the same text; without dropping objects all triggers stay whatever was read."
  },
  {
   "property": "C94",
   "status": "partial",
   "theorems": [
    "C94_refuted",
    "C94_refuted_line",
    "C94_refuted_percent",
    "C94_refuted_sqlserver",
    "C94_partial",
    "C94_crash",
    "C94_line_bound",
    "C94_sqlserver_partial",
    "C94_garbled",
    "C94_garbled_sqlserver",
    "C94_others"
   ],
   "note": "REFUTED as stated: AnnotateError of the lib/pq driver slices the bytes of the script at a position that PostgreSQL counts in characters from 1, and passes the detail, the hint and the messages to fmt.Errorf as part of the format. C94_refuted: a script that ends too early (syntax error at end of input) crashes the program; C94_crash: of the reports about ASCII scripts exactly those at the end of input do. C94_refuted_line: with letters of two bytes the error of line 2 is said to be on line 1 (C94_line_bound: a line is never shown too large). C94_refuted_percent, C94_refuted_sqlserver: values with a percent sign are garbled. C94_partial: for ASCII scripts, a position of a character other than a line feed, detail and hint without percent signs, exactly what the database said is shown, with the right line; C94_sqlserver_partial: messages without percent signs likewise."
  },
  {
   "property": "C95",
   "status": "proved",
   "theorems": [
    "C95",
    "C95_same",
    "C95_all",
    "C95_dashes",
    "C95_commands",
    "C95_anywhere",
    "C95_accepted"
   ],
   "note": "C95: for every subcommand, written global flags, own flags and arguments the subcommand is run with the global flags, then its own, and the exit status says whether it succeeded, whether the global flags are before or after the name. C95_same: the two command lines do the same whatever follows, well-formed or not, also for names that are no subcommands. C95_dashes: two minus signs before the subcommand are forwarded too, so that the flags after the subcommand are taken for arguments; command lines with them are not claimed. What a subcommand does with its flags is a parameter. C95_commands, C95_anywhere: the same with the options that the commands make of their flags (ModelFlags.v), also when the global flags stand behind others of the subcommand."
  },
  {
   "property": "C96",
   "status": "partial",
   "theorems": [
    "C96_refuted",
    "C96_refuted_missing",
    "C96_partial",
    "C96_run",
    "C96_commands_partial",
    "C96_command",
    "C96_help",
    "C96_silent",
    "C96_models"
   ],
   "note": "REFUTED as stated: a subcommand that does not exist (sqddl migrte ...) and a command line without a subcommand do nothing and exit with status 0. C96_partial: these are the only cases; in all others status 0 means that a subcommand was run and succeeded or that one of the words -h, -help (with one or two minus signs) is in the command line. C96_run: a subcommand that is run gives status 0 exactly if it succeeds. C96_commands_partial, C96_command, C96_help, C96_silent: the same with the options that the commands make of their flags; C96_models: the two models of main give the same status."
  },
  {
   "property": "C97",
   "status": "partial",
   "theorems": [
    "C97_refuted",
    "C97_refuted_go",
    "C97_refuted_names",
    "C97_partial",
    "C97_only",
    "C97_view",
    "C97_types"
   ],
   "note": "REFUTED as stated: fields of view columns get no sq tag, so the column \"firstName\" gives a field FIRSTNAME that stands for \"firstname\" (C97_refuted); a view \"order-lines\" gives text that is no Go code (C97_refuted_go); views of the same name in two schemas give two structs of one name (C97_refuted_names). C97_partial: it holds for names that yield different Go identifiers if the columns have neither capitals nor spaces; C97_only: of those views it holds for no others; C97_view: the view itself is always named correctly for such views; C97_types: the types of the fields are those of table columns with the same types."
  },
  {
   "property": "C98",
   "status": "partial",
   "theorems": [
    "C98_refuted",
    "C98_tables",
    "C98_same",
    "C98_partial"
   ],
   "note": "REFUTED as stated: schema \"a\" with table \"b_c\" and schema \"a_b\" with table \"c\" both give the struct A_B_C. C98_partial: it holds if schemas have no underscores and spaces and the names differ as Go identifiers. C98_tables: every struct stands for its table in any case; C98_same: nothing else is changed by the flag."
  },
  {
   "property": "C99",
   "status": "partial",
   "theorems": [
    "C99_refuted",
    "C99_refuted_here",
    "C99_refuted_parent",
    "C99_refuted_empty",
    "C99_partial",
    "C99_rejected"
   ],
   "note": "REFUTED as stated: for a file in the directory my-app the text begins with \"package my-app\"; for one in the current directory, without -pkg, with \"package _\"; for one in .. with \"package ..\"; and if there are no tables (views) any more, the old file stays. C99_partial: it holds if -pkg is a Go identifier, or the name of the directory is one once its spaces are underscores, and there are structs. go/format is a parameter that keeps the declarations of what it accepts."
  },
  {
   "property": "C100",
   "status": "partial",
   "theorems": [
    "C100_refuted",
    "C100_refuted_nested",
    "C100_refuted_gzip",
    "C100_refuted_json",
    "C100_value",
    "C100_partial",
    "C100_db"
   ],
   "note": "REFUTED as stated: a URL with a comma (in a password, say) is cut in two (C100_refuted); a schema.json in a directory of an archive is read instead of the one at the top if it comes first (C100_refuted_nested); archives called .tar.gzip are taken for databases (C100_refuted_gzip); of several JSON files only the last counts, for any decoder that leaves as many schemas as the file has (C100_refuted_json). C100_partial: it holds for lists of other values without commas; C100_value: for each such value, commas or not; C100_db: -db is the source without -src and is not cut. Reading a database, parsing Go and JSON, and unpacking archives are parameters."
  },
  {
   "property": "C101",
   "status": "partial",
   "theorems": [
    "C101_refuted",
    "C101_refuted_lost",
    "C101_twice",
    "C101_partial"
   ],
   "note": "REFUTED as stated: a database that is given twice always panics if a table in it has a column (C101_twice, for every dialect and database), since AddOrUpdateTable replaces the table by an empty one but the positions of its columns stay in the cache; if the tables of the same name have other columns, columns are silently lost (C101_refuted_lost). C101_partial: it holds if no table is in two of the databases."
  },
  {
   "property": "C102",
   "status": "partial",
   "theorems": [
    "C102_refuted",
    "C102_aggregates",
    "C102_no_parameters",
    "C102_by_name",
    "C102_no_checks",
    "C102_not_valid",
    "C102_comments",
    "C102_hidden",
    "C102_procedures",
    "C102_same_name",
    "C102_encrypted",
    "C102_partial"
   ],
   "note": "REFUTED as stated: no Postgres database with an aggregate of its own can be read (C102_aggregates), no MySQL database with a function without parameters (C102_no_parameters), nothing if enums or domains are chosen by name (C102_by_name: no table pg_typ, a missing AND), no SQL Server database with an encrypted module; a domain without checks is given one without name and expression, NOT VALID becomes a part of the expression, comments of types and enums without labels are lost, MySQL procedures without parameters are lost, and of a function and a procedure of the same name only one is left, with the parameters of both. C102_partial: it holds for the other databases, with any number of schemas, types, routines and overloads."
  },
  {
   "property": "C103",
   "status": "partial",
   "theorems": [
    "C103_refuted",
    "C103_refused",
    "C103_lost",
    "C103_partial"
   ],
   "note": "REFUTED as stated: a domain without checks is written as \"... CHECK ;\" and refused, a domain whose base type is a domain with a later name or a type of a later schema comes before it and is refused, and with an aggregate of its own nothing is dumped (C103_refused); two quotes in a row inside a label become one, NOT VALID is written into the expression of the check, enums without labels and the types of schemas called pg... are left out (C103_lost). C103_partial: for all other databases loading the three files into a database without types and tables succeeds and gives the extensions, enums, domains (type, NOT NULL, collation, default, checks) and the tables of C82, columns of these types included."
  },
  {
   "property": "C104",
   "status": "partial",
   "theorems": [
    "C104_refuted",
    "C104_shared",
    "C104_partial"
   ],
   "note": "REFUTED as stated: Descending and Opclasses of an index of a (materialized) view are not cloned, so that changing them in the original changes the copy (C104_refuted). C104_shared: nothing else is ever shared, whatever the destination had before. C104_partial: the claim holds if no index of a view has directions or operator classes. Slices of objects are lists, every slice is all of its array."
  },
  {
   "property": "C105",
   "status": "partial",
   "theorems": [
    "C105_refuted",
    "C105_virtual",
    "C105_merged",
    "C105_unnamed",
    "C105_partial"
   ],
   "note": "REFUTED as stated: of the constraints of a table that was read from SQLite, which have no names, only the last one is left (C105_unnamed); IsVirtual is not copied (C105_virtual); and of a function and a procedure with the same name, which MySQL allows, only the latter is left (C105_merged). C105_partial: for all other catalogs the copy has the contents of the original, objects of every kind and all their fields. C63 is about tables only and without the heap."
  },
  {
   "property": "C106",
   "status": "partial",
   "theorems": [
    "C106_refuted",
    "C106_doubled",
    "C106_partial",
    "C106_twice"
   ],
   "note": "REFUTED as stated: NewCatalogCache does not enter everything that GetOrCreate looks for: ignored objects, constraints without names (SQLite), indexes of views that are not marked as materialized (all of SQL Server) and routines with arguments outside of Postgres are there twice after the second writing (C106_doubled). C106_partial: for all other catalogs the contents stay the same. C106_twice: the same for two writings to an empty catalog."
  },
  {
   "property": "C107",
   "status": "partial",
   "theorems": [
    "C107_refuted",
    "C107_comments",
    "C107_capitals",
    "C107_lost",
    "C107_namesake",
    "C107_unseen",
    "C107_errors",
    "C107_not_asked",
    "C107_cut",
    "C107_wide",
    "C107_bars",
    "C107_bare",
    "C107_fails",
    "C107_sound",
    "C107_structs",
    "C107_partial"
   ],
   "note": "REFUTED as stated: comments of Postgres views are never read (C107_comments); a view with a capital in its name is lost (C107_capitals) or gets the columns and the text of another one (C107_namesake); names and types with a bar are split (C107_bars); MySQL cuts off the names of columns after 1024 bytes (C107_cut, C107_wide); Postgres views without columns are lost (C107_bare); one broken view of SQLite, encrypted view of SQL Server or Postgres view with a space in its name makes the whole reading fail (C107_fails). C107_sound: nothing is made up. C107_partial: for all other databases the views that are wanted are read as they are; C107_structs: and the structs generated for them declare them."
  },
  {
   "property": "C108",
   "status": "partial",
   "theorems": [
    "C108_refuted",
    "C108_view_lost",
    "C108_both_lists",
    "C108_sqlite_views",
    "C108_case",
    "C108_stray",
    "C108_broken_off",
    "C108_encrypted",
    "C108_errors",
    "C108_sound",
    "C108_partial"
   ],
   "note": "REFUTED as stated: a list of tables takes the triggers of the views away, and in SQL Server a list of views those of the tables (C108_both_lists, C108_view_lost); triggers of views of SQLite are never found, as they are taken for those of tables (C108_sqlite_views); triggers of SQLite whose table was written in other letters are lost (C108_case); Postgres triggers may get comments of other objects (C108_stray); a connection that breaks down during the reading is not noticed (C108_broken_off); one encrypted trigger of SQL Server makes the whole reading fail (C108_encrypted). C108_partial: otherwise each table and view gets its triggers, in order, with names, texts and comments. C108_sound: for all databases and filters, a trigger that a table or view gets is one of its triggers in the database."
  },
  {
   "property": "C109",
   "status": "proved",
   "theorems": [
    "C109",
    "C109_sources",
    "C109_destination",
    "C109_not_utf8",
    "C109_mended",
    "C109_texts"
   ],
   "note": "Texts that are not UTF-8 are changed (C109_not_utf8, C109_mended): outside of the quantifier. C109_sources: for files, directories and archives, with the functions of C100. C109_destination: also if dialect and current schema were taken over from the source."
  },
  {
   "property": "C110",
   "status": "partial",
   "theorems": [
    "C110_refuted",
    "C110_mixed",
    "C110_overlay",
    "C110_count",
    "C110_partial"
   ],
   "note": "REFUTED as stated: the decoder fills the elements that are there already, by their places, and leaves the fields alone that the second file leaves out: the tables of the first file are lost and those of the second get their comments, keys and triggers (C110_mixed). C110_overlay: exactly what the catalog is, for all pairs. C110_count: as many schemas as in the second file. C110_partial: if only one of the files has schemas, the catalog has the tables of both and no others."
  },
  {
   "property": "C111",
   "status": "partial",
   "theorems": [
    "C111_refuted",
    "C111_tables",
    "C111_partial",
    "C111_order"
   ],
   "note": "REFUTED as stated: for a table all of whose columns are generated the query is SELECT FROM, which only Postgres accepts (C111_refuted). C111_tables: one query for each table except virtual tables of SQLite. C111_partial: otherwise, in every dialect and in any state of the database, the text of the query is read as a query for that table and its stored columns, the answer has all rows with the values in the columns of the first line of the file. C111_order: in the order of the primary key. Names that do not survive quoting (C03) are outside of the quantifier."
  },
  {
   "property": "C112",
   "status": "partial",
   "theorems": [
    "C112_refuted",
    "C112_references_refuted",
    "C112_directory_refuted",
    "C112_moments_partial",
    "C112_quiet_partial",
    "C112_growing_partial"
   ],
   "note": "REFUTED as stated: the queries are asked one by one, without a transaction: the dump has the customers of one moment and the orders of a later one, whose customers are not in the dump, although the database was intact at every moment (C112_refuted, C112_references_refuted; C112_directory_refuted for directories). C112_moments_partial: each file is what its table was at some moment. C112_quiet_partial: if the tables are not changed from the first query to the last, the dump is the database of that time and references are intact. C112_growing_partial: references are intact if rows are only added and each table is asked for before those it refers to."
  },
  {
   "property": "C113",
   "status": "partial",
   "theorems": [
    "C113_partial",
    "C113_exact",
    "C113_one",
    "C113_round",
    "C113_days",
    "C113_refuted"
   ],
   "note": "REFUTED as stated: a time string of SQLite with a time zone after the minutes, or with a space before the zone, stays a text (C113_refuted). Proved: every text in one of the nine formats, with or without Z, is loaded as the second that it denotes, where days are counted one by one from the first of January 1970 (C113_partial); exactly the texts of [time_text true], the formats with the liberties Go takes, become numbers, all other fields stay as they are (C113_exact); a text denotes one second (C113_one); a time from year 0 to 9999 that dump writes is loaded as the second it was in (C113_round); the day numbers are a bijection between dates and integers (C113_days). Go's package time is modelled, nanoseconds left out."
  },
  {
   "property": "C114",
   "status": "proved",
   "theorems": [
    "C114",
    "C114_sources",
    "C114_dumped",
    "C114_letters",
    "C114_null"
   ],
   "note": "Numbers are whole numbers without an exponent, as a catalog has no others. Extra members may not be named like a field in other letters: such keys are taken for the field (C114_letters), also with a long s or a Kelvin sign. C114_dumped: what dump writes is one such description. encoding/json is modelled."
  },
  {
   "property": "C115",
   "status": "partial",
   "theorems": [
    "C115_partial",
    "C115_refuted",
    "C115_order",
    "C115_options",
    "C115_lists",
    "C115_dump_dir"
   ],
   "note": "REFUTED as stated: touch -db X without -dir is accepted although its help calls -dir required; the working directory is taken (C115_refuted). Everything else is proved as an equivalence (C115_partial). C115_options: names, kinds and defaults are those of a separate table. C115_dump_dir: the -dir of dump's own usage text is refused. ParseInt, ParseDuration and which URLs have a known dialect are parameters; opening the database and reading sources belong to running the command."
  },
  {
   "property": "C116",
   "status": "partial",
   "theorems": [
    "C116_partial",
    "C116_refuted",
    "C116_last",
    "C116_unreadable",
    "C116_no_record",
    "C116_loaded"
   ],
   "note": "REFUTED as stated: the range is made of multiples of -batchsize, but statements may be smaller because of parameter limits; with SQLite, 33 columns and the default batch size 1000 a wrong record 992 is reported as record 1001 to 1982 (C116_refuted). It holds if the size of the statements divides -batchsize (C116_partial); in general a wrong record is among the last ones up to the end of the range, as many as a statement has (C116_last). If nothing was read, e.g. the table does not exist, the error says record 1 to 0 (C116_no_record). C116_loaded: the loop agrees with the one of C31. The ceiling of the floating point quotient is the integer one (below 2^52 records)."
  },
  {
   "property": "C117",
   "status": "partial",
   "theorems": [
    "C117_partial",
    "C117_refuted",
    "C117_keep_partial",
    "C117_rebuilt",
    "C117_no_clash"
   ],
   "note": "REFUTED as stated: a table that is rebuilt (with -drop-objects, e.g. because a column gets another type) gets a new entry in sqlite_sequence that knows only the rows that are there, so the numbers of deleted rows at the end are given again (C117_refuted; C117_rebuilt says exactly what the counter is). Proved: it holds for all tables without -drop-objects (C117_keep_partial) and otherwise if the row with the largest number is still there (C117_partial, for migrations that delete no rows by foreign keys as in C92); no row that is there after a migration has a number that will be given again (C117_no_clash). The behaviour of SQLite (sqlite_sequence) is modelled from its documentation."
  },
  {
   "property": "C118",
   "status": "partial",
   "theorems": [
    "C118_partial",
    "C118_refuted",
    "C118_exact",
    "C118_versions_refuted",
    "C118_unread",
    "C118_routines",
    "C118_subset",
    "C118_wipe",
    "C118_wipe_refuted",
    "C118_files"
   ],
   "note": "REFUTED as stated: the scripts distinguish Postgres before 11, MySQL before 8 and SQLite before 3.37, but use columns of Postgres 12 (attgenerated), relations of MySQL 8.0.16 (check_constraints) and of SQLite 3.33 (sqlite_schema), so the older versions fail (C118_refuted, C118_versions_refuted). C118_exact: exactly which versions of each product can be read; C118_partial: with any filter, these versions are asked only for what they have. C118_subset: the versions for subsets. C118_routines: the distinction for routines of Postgres is right. C118_wipe: wipe never asks for the version, so SQLite 3.36 can be dumped and not wiped (C118_wipe_refuted). Which version has what is taken from the release notes of the products (SpecServers.v) and is trusted."
  },
  {
   "property": "C119",
   "status": "partial",
   "theorems": [
    "C119_partial",
    "C119_refuted",
    "C119_exact",
    "C119_nothing_added",
    "C119_refuted_stamps",
    "C119_refuted_numbers",
    "C119_refuted_invisible",
    "C119_refuted_expressions"
   ],
   "note": "REFUTED as stated: ON UPDATE CURRENT_TIMESTAMP is only recognised as 'DEFAULT_GENERATED on update CURRENT_TIMESTAMP', so it is lost in MySQL 5.7 and MariaDB, without DEFAULT CURRENT_TIMESTAMP and with fractional digits (C119_refuted_stamps); start and step of Postgres identities are lost (C119_refuted_numbers); an invisible AUTO_INCREMENT column becomes an ordinary one (C119_refuted_invisible); AS (a + 1) * (b + 2) is written without brackets, a virtual column of Postgres 18 gets its expression as default, and NOT NULL is written before AS in MySQL, which is refused (C119_refuted_expressions). C119_partial: everything else is kept, in particular all identities of SQL Server and all its expressions. C119_exact: apart from expressions nothing more is kept. C119_nothing_added: no attribute is invented."
  },
  {
   "property": "C120",
   "status": "partial",
   "theorems": [
    "C120_partial",
    "C120_refuted",
    "C120_refuted_fractions",
    "C120_exact",
    "C120_one",
    "C120_apart",
    "C120_texts",
    "C120_clock_refused",
    "C120_seconds",
    "C120_milliseconds"
   ],
   "note": "REFUTED as stated: rows.Err is never asked, so a query that breaks off gives a smaller subset without an error, and fractions of a second are lost or cut to milliseconds. Proved: every key that is a whole second is kept and its literal names that second, by an independent calendar; a literal names its own instant exactly when that is a whole second; different seconds never get the same literal; exactly which texts are read; times of day (TIME of MySQL) always make the query fail. For keys with one column; what the drivers deliver is taken as given."
  },
  {
   "property": "C121",
   "status": "partial",
   "theorems": [
    "C121_complaints",
    "C121_silent",
    "C121_parser",
    "C121_parser_tables",
    "C121_partial",
    "C121_refuted",
    "C121_refuted_rules",
    "C121_command",
    "C121_position",
    "C121_linter_partial",
    "C121_linter",
    "C121_refuted_keyless",
    "C121_refuted_percent",
    "C121_refuted_tables"
   ],
   "note": "REFUTED as stated: the keys of a modifier stay for what comes after it, so the foo of 'primarykey foo' is reported under primarykey (C121_refuted), and a wrong ondelete after a wrong onupdate under foreignkey.onupdate.ondelete (C121_refuted_rules); the linter shows 'ACTOR.ACTOR_ID: : unknown modifier' where there are no keys (C121_refuted_keyless) and uses the message as a format, so a percent sign of a tag is garbled (C121_refuted_percent); the tag of the embedded TableStruct is reported without the name of the struct (C121_refuted_tables). Proved for all tags, against a separate grammar: exactly what is wrong is reported (C121_complaints, C121_silent), and by the whole parser modelled for C78 too (C121_parser, C121_parser_tables). Paths are right for orderly tags: unknown modifiers before all keys, nothing reported in a foreign key after an index or a wrong rule (C121_partial). Texts: C121_command for named fields, C121_linter_partial with keys and without percent signs, C121_linter in general. Checks across fields and tables belong to C78."
  },
  {
   "property": "C122",
   "status": "partial",
   "theorems": [
    "C122_partial",
    "C122_refuted",
    "C122_triggers",
    "C122_exact",
    "C122_nothing_else",
    "C122_null"
   ],
   "note": "REFUTED as stated: GetTriggers does not ask rows.Err, so a catalog read over a connection that breaks down has only the triggers that had come (C122_refuted, C122_triggers). Everything else is proved: if the catalog is read, every other question that belongs to it was answered completely and all its rows are there (C122_partial); exactly when it is read (C122_exact); nothing that was not asked for is there (C122_nothing_else). GetVersion does not ask rows.Err either, but an empty version is refused afterwards. C122_null: a MySQL connection without a database and a Postgres connection without a schema in its search path can never be read. What a row is turned into is a parameter here (C86 to C88, C102, C107, C108); database/sql is modelled."
  },
  {
   "property": "C123",
   "status": "partial",
   "theorems": [
    "C123_partial",
    "C123_migrate",
    "C123_untouched",
    "C123_refuted",
    "C123_refuted_mixed",
    "C123_earlier_first",
    "C123_same_second"
   ],
   "note": "REFUTED as stated: the prefix of generated files is the time in seconds and files are opened with O_TRUNC, so of two calls in the same second the later one overwrites the SQLite migration of the earlier one (C123_refuted), and on the other products the files of both calls are mixed (C123_refuted_mixed). Everything else is proved: any number of calls without -prefix, each in a later second than the one before, leave every generated file with its content in the directory, and sorting the names gives the order of generation (C123_partial, fewer than a hundred migrations per call because of C41); no operation of a later call touches a file of an earlier one, whichever of its operations fail (C123_untouched, over the event model of C67); migrate then runs exactly the generated migrations in that order (C123_migrate, with the conditions of C65); all files of an earlier call come before all files of a later one (C123_earlier_first, any number of files); equal names only in the same second (C123_same_second). The calendar is that of C113; years 0 to 9999; writing files succeeds."
  },
  {
   "property": "C124",
   "status": "proved",
   "theorems": [
    "C124_read",
    "C124_write",
    "C124_array_read",
    "C124_array"
   ],
   "note": "What parseBytea reads is exactly the hex and the escape texts of the Postgres documentation (C124_read); encodeBytea writes such a text for any version, in printable ASCII (C124_write); arrays of such texts in the output syntax of Postgres are read (C124_array_read), and ByteaArray.Value writes an array that is read as the same list (C124_array). A missing element is read as an empty one (C124_missing). encoding/hex and strconv.ParseUint are modelled; nil and empty slices are not distinguished."
  }
 ]
}