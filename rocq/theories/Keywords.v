(** Reserved words of the four dialects, transcribed from the maps in
    ddl/sq.go:105-251. *)
From Verif Require Import GoStr.
Local Open Scope string_scope.

(** ddl/sq.go:105-132 *)
Definition sqlite_keywords : list bytes := map B [
  "abort"; "action"; "add"; "after"; "all"; "alter"; "always"; "analyze";
  "and"; "as"; "asc"; "attach"; "autoincrement"; "before"; "begin"; "between";
  "by"; "cascade"; "case"; "cast"; "check"; "collate"; "column"; "commit";
  "conflict"; "constraint"; "create"; "cross"; "current"; "current_date";
  "current_time"; "current_timestamp"; "database"; "default"; "deferrable";
  "deferred"; "delete"; "desc"; "detach"; "distinct"; "do"; "drop"; "each";
  "else"; "end"; "escape"; "except"; "exclude"; "exclusive"; "exists";
  "explain"; "fail"; "filter"; "first"; "following"; "for"; "foreign"; "from";
  "full"; "generated"; "glob"; "group"; "groups"; "having"; "if"; "ignore";
  "immediate"; "in"; "index"; "indexed"; "initially"; "inner"; "insert";
  "instead"; "intersect"; "into"; "is"; "isnull"; "join"; "key"; "last";
  "left"; "like"; "limit"; "match"; "materialized"; "natural"; "no"; "not";
  "nothing"; "notnull"; "null"; "nulls"; "of"; "offset"; "on"; "or"; "order";
  "others"; "outer"; "over"; "partition"; "plan"; "pragma"; "preceding";
  "primary"; "query"; "raise"; "range"; "recursive"; "references"; "regexp";
  "reindex"; "release"; "rename"; "replace"; "restrict"; "returning"; "right";
  "rollback"; "row"; "rows"; "savepoint"; "select"; "set"; "table"; "temp";
  "temporary"; "then"; "ties"; "to"; "transaction"; "trigger"; "unbounded";
  "union"; "unique"; "update"; "using"; "vacuum"; "values"; "view"; "virtual";
  "when"; "where"; "window"; "with"; "without"].

(** ddl/sq.go:136-156 *)
Definition postgres_keywords : list bytes := map B [
  "all"; "analyse"; "analyze"; "and"; "any"; "array"; "as"; "asc";
  "asymmetric"; "authorization"; "binary"; "both"; "case"; "cast"; "check";
  "collate"; "collation"; "column"; "concurrently"; "constraint"; "create";
  "cross"; "current_catalog"; "current_date"; "current_role";
  "current_schema"; "current_time"; "current_timestamp"; "current_user";
  "default"; "deferrable"; "desc"; "distinct"; "do"; "else"; "end"; "except";
  "false"; "fetch"; "for"; "foreign"; "freeze"; "from"; "full"; "grant";
  "group"; "having"; "ilike"; "in"; "initially"; "inner"; "intersect"; "into";
  "is"; "isnull"; "join"; "lateral"; "leading"; "left"; "like"; "limit";
  "localtime"; "localtimestamp"; "natural"; "not"; "notnull"; "null";
  "offset"; "on"; "only"; "or"; "order"; "outer"; "overlaps"; "placing";
  "primary"; "references"; "returning"; "right"; "select"; "session_user";
  "similar"; "some"; "symmetric"; "table"; "tablesample"; "then"; "to";
  "trailing"; "true"; "union"; "unique"; "user"; "using"; "variadic";
  "verbose"; "when"; "where"; "window"; "with"].

(** ddl/sq.go:160-211 *)
Definition mysql_keywords : list bytes := map B [
  "accessible"; "add"; "all"; "alter"; "analyze"; "and"; "as"; "asc";
  "asensitive"; "before"; "between"; "bigint"; "binary"; "blob"; "both"; "by";
  "call"; "cascade"; "case"; "change"; "char"; "character"; "check";
  "collate"; "column"; "condition"; "constraint"; "continue"; "convert";
  "create"; "cross"; "cube"; "cume_dist"; "current_date"; "current_time";
  "current_timestamp"; "current_user"; "cursor"; "database"; "databases";
  "day_hour"; "day_microsecond"; "day_minute"; "day_second"; "dec"; "decimal";
  "declare"; "default"; "delayed"; "delete"; "dense_rank"; "desc"; "describe";
  "deterministic"; "distinct"; "distinctrow"; "div"; "double"; "drop"; "dual";
  "each"; "else"; "elseif"; "empty"; "enclosed"; "escaped"; "except";
  "exists"; "exit"; "explain"; "false"; "fetch"; "first_value"; "float";
  "float4"; "float8"; "for"; "force"; "foreign"; "from"; "fulltext";
  "function"; "generated"; "get"; "grant"; "group"; "grouping"; "groups";
  "having"; "high_priority"; "hour_microsecond"; "hour_minute"; "hour_second";
  "if"; "ignore"; "in"; "index"; "infile"; "inner"; "inout"; "insensitive";
  "insert"; "int"; "int1"; "int2"; "int3"; "int4"; "int8"; "integer";
  "intersect"; "interval"; "into"; "io_after_gtids"; "io_before_gtids"; "is";
  "iterate"; "join"; "json_table"; "key"; "keys"; "kill"; "lag"; "last_value";
  "lateral"; "lead"; "leading"; "leave"; "left"; "like"; "limit"; "linear";
  "lines"; "load"; "localtime"; "localtimestamp"; "lock"; "long"; "longblob";
  "longtext"; "loop"; "low_priority"; "master_bind";
  "master_ssl_verify_server_cert"; "match"; "maxvalue"; "mediumblob";
  "mediumint"; "mediumtext"; "middleint"; "minute_microsecond";
  "minute_second"; "mod"; "modifies"; "natural"; "not"; "no_write_to_binlog";
  "nth_value"; "ntile"; "null"; "numeric"; "of"; "on"; "optimize";
  "optimizer_costs"; "option"; "optionally"; "or"; "order"; "out"; "outer";
  "outfile"; "over"; "partition"; "percent_rank"; "precision"; "primary";
  "procedure"; "purge"; "range"; "rank"; "read"; "reads"; "read_write";
  "real"; "recursive"; "references"; "regexp"; "release"; "rename"; "repeat";
  "replace"; "require"; "resignal"; "restrict"; "return"; "revoke"; "right";
  "rlike"; "row"; "rows"; "row_number"; "schema"; "schemas";
  "second_microsecond"; "select"; "sensitive"; "separator"; "set"; "show";
  "signal"; "smallint"; "spatial"; "specific"; "sql"; "sqlexception";
  "sqlstate"; "sqlwarning"; "sql_big_result"; "sql_calc_found_rows";
  "sql_small_result"; "ssl"; "starting"; "stored"; "straight_join"; "system";
  "table"; "terminated"; "then"; "tinyblob"; "tinyint"; "tinytext"; "to";
  "trailing"; "trigger"; "true"; "undo"; "union"; "unique"; "unlock";
  "unsigned"; "update"; "usage"; "use"; "using"; "utc_date"; "utc_time";
  "utc_timestamp"; "values"; "varbinary"; "varchar"; "varcharacter";
  "varying"; "virtual"; "when"; "where"; "while"; "window"; "with"; "write";
  "xor"; "year_month"; "zerofill"].

(** ddl/sq.go:215-251 *)
Definition sqlserver_keywords : list bytes := map B [
  "add"; "external"; "procedure"; "all"; "fetch"; "public"; "alter"; "file";
  "raiserror"; "and"; "fillfactor"; "read"; "any"; "for"; "readtext"; "as";
  "foreign"; "reconfigure"; "asc"; "freetext"; "references"; "authorization";
  "freetexttable"; "replication"; "backup"; "from"; "restore"; "begin";
  "full"; "restrict"; "between"; "function"; "return"; "break"; "goto";
  "revert"; "browse"; "grant"; "revoke"; "bulk"; "group"; "right"; "by";
  "having"; "rollback"; "cascade"; "holdlock"; "rowcount"; "case"; "identity";
  "rowguidcol"; "check"; "identity_insert"; "rule"; "checkpoint";
  "identitycol"; "save"; "close"; "if"; "schema"; "clustered"; "in";
  "securityaudit"; "coalesce"; "index"; "select"; "collate"; "inner";
  "semantickeyphrasetable"; "column"; "insert";
  "semanticsimilaritydetailstable"; "commit"; "intersect";
  "semanticsimilaritytable"; "compute"; "into"; "session_user"; "constraint";
  "is"; "set"; "contains"; "join"; "setuser"; "containstable"; "key";
  "shutdown"; "continue"; "kill"; "some"; "convert"; "left"; "statistics";
  "create"; "like"; "system_user"; "cross"; "lineno"; "table"; "current";
  "load"; "tablesample"; "current_date"; "merge"; "textsize"; "current_time";
  "national"; "then"; "current_timestamp"; "nocheck"; "to"; "current_user";
  "nonclustered"; "top"; "cursor"; "not"; "tran"; "database"; "null";
  "transaction"; "dbcc"; "nullif"; "trigger"; "deallocate"; "of"; "truncate";
  "declare"; "off"; "try_convert"; "default"; "offsets"; "tsequal"; "delete";
  "on"; "union"; "deny"; "open"; "unique"; "desc"; "opendatasource";
  "unpivot"; "disk"; "openquery"; "update"; "distinct"; "openrowset";
  "updatetext"; "distributed"; "openxml"; "use"; "double"; "option"; "user";
  "drop"; "or"; "values"; "dump"; "order"; "varying"; "else"; "outer"; "view";
  "end"; "over"; "waitfor"; "errlvl"; "percent"; "when"; "escape"; "pivot";
  "where"; "except"; "plan"; "while"; "exec"; "precision"; "with"; "execute";
  "primary"; "within group"; "exists"; "print"; "writetext"; "exit"; "proc"].

(** The map consulted for a dialect (ddl/sq.go:53-62). *)
Definition keywords (d : dialect) : list bytes :=
  match d with
  | SQLite => sqlite_keywords
  | Postgres => postgres_keywords
  | MySQL => mysql_keywords
  | SQLServer => sqlserver_keywords
  | Other => []
  end.
