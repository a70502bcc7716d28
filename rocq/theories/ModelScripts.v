(** Which scripts the commands send to a database (introspection_scripts/*.sql), and which relations, columns,
    functions and words of the database they use that came or went with some version.  Conditions on
    versions are those of the scripts; everything else about the scripts is in ModelIntrospect.v,
    ModelExtras.v, ModelLiveViews.v and ModelLiveTriggers.v. *)
From Verif Require Import GoStr ModelCatalog ModelDdl ModelVersion.

(** What not every version has. *)
Inductive feature :=
| SqliteSchema      (* the relation sqlite_schema *)
| PragmaFunctions   (* pragma_table_info(...) and the like in FROM *)
| TableXinfo        (* pragma_table_xinfo *)
| TableList         (* pragma_table_list *)
| WordFalse         (* WHERE FALSE *)
| PgExtension       (* the relation pg_extension *)
| PgMatviews        (* the relation pg_matviews *)
| Ordinality        (* WITH ORDINALITY *)
| RegclassOfText    (* to_regclass(text) *)
| AttIdentity       (* pg_attribute.attidentity *)
| AttGenerated      (* pg_attribute.attgenerated *)
| IndNKeyAtts       (* pg_index.indnkeyatts *)
| ProKind           (* pg_proc.prokind *)
| ProIsAgg          (* pg_proc.proisagg, pg_proc.proiswindow *)
| Parameters        (* information_schema.parameters *)
| GenerationExpr    (* information_schema.columns.generation_expression *)
| StatExpression    (* information_schema.statistics.expression *)
| CheckConstraints  (* information_schema.check_constraints *)
| SqlConcat         (* CONCAT of SQL Server *)
| StringAgg.        (* string_agg of SQL Server *)

Inductive script := Extensions | Enums | Domains | Routines | Views | Tables | Columns | Constraints | Indexes | Triggers.

(** The data of the scripts: Filter, database_introspector.go:1544-1622, as far as these conditions go. *)
Record script_data := ScriptData { sd_nums : list Z; sd_version : bytes; sd_system : bool; sd_types : list bytes }.
(** IncludeConstraintType, database_introspector.go:1626-1636. *)
Definition include_type (f : script_data) (t : bytes) : bool := match sd_types f with [] => true | l => bmem t l end.
Definition some_key (f : script_data) : bool :=
  include_type f (B"PRIMARY KEY") || include_type f (B"UNIQUE") || include_type f (B"FOREIGN KEY").
Definition when (b : bool) (l : list feature) : list feature := if b then l else [].

(** sqlite_*.sql. *)
Definition sqlite_uses (f : script_data) (s : script) : list feature :=
  match s with
  (* sqlite_tables.sql:5, 8-17 *)
  | Tables => SqliteSchema :: when (negb (sd_system f) && negb (lower_than (sd_nums f) [3; 37]%Z)) [TableList]
  (* sqlite_columns.sql:12, 24; sqlite_views.sql:11, 23 *)
  | Columns | Views => [SqliteSchema; PragmaFunctions; TableXinfo]
  (* sqlite_constraints.sql:10, 29, 41, 70, 82-83, 117, 129 *)
  | Constraints => WordFalse :: when (some_key f) [SqliteSchema; PragmaFunctions]
  (* sqlite_indexes.sql:23, 35-37 *)
  | Indexes => [SqliteSchema; PragmaFunctions]
  (* sqlite_triggers.sql:6 *)
  | Triggers => [SqliteSchema]
  | _ => []
  end.
(** postgres_*.sql. *)
Definition postgres_uses (f : script_data) (s : script) : list feature :=
  match s with
  (* postgres_extensions.sql:5 *)
  | Extensions => [PgExtension]
  (* postgres_routines.sql:4-19, 33 *)
  | Routines => PgExtension :: (if lower_than (sd_nums f) [11]%Z then [ProIsAgg] else [ProKind])
  (* postgres_views.sql:5, 9, 26, 47, 51, 53, 68 *)
  | Views => [PgMatviews; RegclassOfText]
  (* postgres_columns.sql:22, 28, 32, 37 *)
  | Columns => [AttIdentity; AttGenerated]
  (* postgres_constraints.sql:56, 115, 199-200, 314-315 *)
  | Constraints => when (some_key f || include_type f (B"EXCLUDE")) [Ordinality]
  (* postgres_indexes.sql:21, 34-35 *)
  | Indexes => [IndNKeyAtts; Ordinality]
  | _ => []
  end.
(** mysql_*.sql. *)
Definition mysql_uses (f : script_data) (s : script) : list feature :=
  match s with
  (* mysql_routines.sql:27 *)
  | Routines => [Parameters]
  (* mysql_columns.sql:12 *)
  | Columns => [GenerationExpr]
  (* mysql_constraints.sql:141, 158 *)
  | Constraints => when (include_type f (B"CHECK") && greater_or_equal_to (sd_nums f) [8]%Z) [CheckConstraints]
  (* mysql_indexes.sql:16-20 *)
  | Indexes => if contains (sd_version f) (B"MariaDB") || lower_than (sd_nums f) [8]%Z then [] else [StatExpression]
  | _ => []
  end.
(** sqlserver_*.sql. *)
Definition sqlserver_uses (f : script_data) (s : script) : list feature :=
  match s with
  (* sqlserver_columns.sql:19 *)
  | Columns => [SqlConcat]
  (* sqlserver_constraints.sql:24, 71, 118, 121 *)
  | Constraints => when (some_key f) [StringAgg]
  (* sqlserver_indexes.sql:8-10; sqlserver_views.sql:14-15 *)
  | Indexes | Views => [StringAgg]
  | _ => []
  end.
Definition uses (d : dialect) (f : script_data) (s : script) : list feature :=
  match d with
  | SQLite => sqlite_uses f s
  | Postgres => postgres_uses f s
  | MySQL => mysql_uses f s
  | SQLServer => sqlserver_uses f s
  | Other => []
  end.
(** Whether the dialect has the script at all: GetRoutines returns nothing for SQLite
    (database_introspector.go:1145-1146), GetExtensions, GetEnums and GetDomains return nothing except for
    Postgres (lines 840-842, 902-904, 935-937). *)
Definition has_script (d : dialect) (s : script) : bool :=
  match s, d with
  | (Extensions | Enums | Domains), Postgres => true
  | (Extensions | Enums | Domains), _ => false
  | Routines, SQLite => false
  | _, _ => true
  end.
Definition request (d : dialect) (f : script_data) (s : script) : list (script * list feature) :=
  if has_script d s then [(s, uses d f s)] else [].

(** WriteCatalog, database_introspector.go:46-237: [v] is the version that the server reports, [kinds] is
    Filter.ObjectTypes, [types] is Filter.ConstraintTypes.  The numbers are put into the filter (line 68), the
    version itself only for the indexes of MySQL (lines 974-984); no other script looks at it. *)
Definition kind_included (kinds : list bytes) (k : bytes) : bool := match kinds with [] => true | l => bmem k l end.
Definition catalog_requests (d : dialect) (v : bytes) (kinds types : list bytes) (system : bool) : result (list (script * list feature)) :=
  bindr (version_nums d v) (fun nums =>
    let r := request d (ScriptData nums v system types) in
    let on k l := if kind_included kinds k then flat_map r l else [] in
    Ok (on (B"EXTENSIONS") [Extensions] ++ on (B"ENUMS") [Enums] ++ on (B"DOMAINS") [Domains] ++ on (B"ROUTINES") [Routines]
        ++ on (B"VIEWS") [Views] ++ on (B"TABLES") [Tables; Columns; Constraints]
        ++ (if kind_included kinds (B"TABLES") || kind_included kinds (B"VIEWS") then flat_map r [Indexes; Triggers] else []))).
(** WipeCmd.Run, wipe_cmd.go:96-239, which does not ask for the version: Filter.VersionNums is empty. *)
Definition wipe_requests (d : dialect) : list (script * list feature) :=
  let f types := ScriptData [] [] false types in
  let keys := [B"FOREIGN KEY"] in
  request d (f []) Views
  ++ match d with SQLite => [] | _ => request d (f keys) Constraints end
  ++ request d (f keys) Tables
  ++ match d with SQLite => [] | _ => request d (f keys) Routines end
  ++ match d with Postgres => flat_map (request d (f keys)) [Enums; Domains; Extensions] | _ => [] end.
