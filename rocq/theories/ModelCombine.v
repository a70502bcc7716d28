(** Model of DatabaseIntrospector.WriteCatalog, database_introspector.go:46-267, for a catalog that
    need not be empty, and of several databases as sources (generate_cmd.go:117-123).  See
    [ModelIntrospect.v] for what is simplified. *)
From Verif Require Import GoStr ModelCatalog ModelCache ModelIntrospect.

(** WriteCatalog, database_introspector.go:46-267. *)
Definition read_into (d : dialect) (f : choice) (db : database) (cat : list schema) : result (list schema) :=
  if match d with Other => true | _ => bad_filter d f end then Err
  else
    bindr (each_row add_table (new_state cat) (rows_of db (table_listed d f) table_rows)) (fun st =>
    bindr (each_row add_column st (rows_of db (columns_listed d f) column_rows)) (fun st =>
    bindr (each_row add_constraint st (rows_of db (keys_listed d f) (key_rows d))) (fun st =>
    bindr (map_result (fun r => r) (rows_of db (keys_listed d f) (index_rows d db))) (fun ixs =>
    bindr (each_row add_index st ixs) (fun st =>
    map_result (flag_schema (st_cache st)) (st_schemas st)))))).

(** Several databases, generate_cmd.go:117-123. *)
Fixpoint read_all (d : dialect) (sources : list (choice * database)) (cat : list schema) : result (list schema) :=
  match sources with
  | [] => Ok cat
  | (f, db) :: l => bindr (read_into d f db cat) (read_all d l)
  end.
