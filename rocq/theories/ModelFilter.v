(** The text that the filter puts into the scripts: mklist, database_introspector.go:1638-1667, and the
    lines {{ if .Schemas }} ... {{ end }} and {{ if .Tables }} ... {{ end }} of *_tables.sql.

    Simplified: only the conditions that come from the filter, not the rest of the query; of all
    scripts those that list the tables (the others repeat the lines with other names of the columns). *)
From Verif Require Import GoStr ModelSq ModelIntrospect.

(** database_introspector.go:1653-1667: [written] says whether a name has been written. *)
Fixpoint mklist_loop (written : bool) (l : list bytes) : bytes :=
  match l with
  | [] => []
  | str :: l' =>
      if beqb str [] then mklist_loop written l'
      else (if written then B", " else []) ++ B"'" ++ escape_quote squote str ++ B"'" ++ mklist_loop true l'
  end.
Definition mklist (l : list bytes) : bytes := mklist_loop false l.
(** sqlite_tables.sql:19-23, postgres_tables.sql:14-23, mysql_tables.sql:13-22, sqlserver_tables.sql:12-21. *)
Definition filter_lines (col : bytes) (l ex : list bytes) : bytes :=
  match l, ex with
  | _ :: _, _ => [LF] ++ B"    AND " ++ col ++ B" IN (" ++ mklist l ++ B")"
  | [], _ :: _ => [LF] ++ B"    AND " ++ col ++ B" NOT IN (" ++ mklist ex ++ B")"
  | [], [] => []
  end.
Definition schema_column (d : dialect) : bytes :=
  match d with Postgres => B"schemas.nspname" | MySQL => B"table_schema" | _ => B"schemas.name" end.
Definition table_column (d : dialect) : bytes :=
  match d with SQLite => B"m.tbl_name" | Postgres => B"tables.relname" | MySQL => B"table_name" | _ => B"tables.name" end.
Definition filter_text (d : dialect) (f : choice) : bytes :=
  match d with SQLite => [] | _ => filter_lines (schema_column d) (f_schemas f) (f_exschemas f) end
  ++ filter_lines (table_column d) (f_tables f) (f_extables f).
