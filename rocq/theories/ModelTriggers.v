(** Triggers of SQLite: GetTriggers and the triggers of WriteCatalog, database_introspector.go, and the
    triggers of copyTable, sqlite_migration.go. *)
From Verif Require Import GoStr ModelCatalog ModelDiff ModelDiffSql.

(** Trigger, ddl.go:539-564, as far as it is used for SQLite. *)
Record trigger := Trigger { tg_table : bytes; tg_name : bytes; tg_sql : bytes }.

(** strings.ReplaceAll(s, "\r\n", "\n") *)
Fixpoint unix_lines (s : bytes) : bytes :=
  match s with
  | [] => []
  | c :: t => match t with d :: _ => if ceqb c CR && ceqb d LF then unix_lines t else c :: unix_lines t | [] => [c] end
  end.

(** GetTriggers, database_introspector.go:1306-1389, for SQLite: the rows that are read, and whether the reading ends
    with an error.  rows.Err is not asked for. *)
Definition get_triggers (rows : list (bytes * bytes * bytes)) (failed : bool) : result (list trigger) :=
  Ok (map (fun '(t, n, s) => Trigger t n (unix_lines s)) rows).

(** AddOrUpdateTrigger, catalog_cache.go:649-662, for triggers that are not ignored. *)
Fixpoint add_trigger (l : list trigger) (t : trigger) : list trigger :=
  match l with
  | [] => [t]
  | u :: l' => if beqb (tg_name u) (tg_name t) then t :: l' else u :: add_trigger l' t
  end.
(** WriteCatalog, database_introspector.go:215-237: the triggers by table.  [tables] are the tables of the catalog. *)
Definition attach (tables : list bytes) (l : list trigger) : bytes -> list trigger :=
  fold_left (fun m t => if bmem (tg_table t) tables then fun n => if beqb n (tg_table t) then add_trigger (m n) t else m n else m) l (fun _ => []).

(** Statements, and the texts of triggers. *)
Inductive tstmt := TStmt (s : stmt) | TTrigger (sql : bytes).
(** copyTable, sqlite_migration.go:377-453, with the triggers. *)
Definition copy_tstmts (st dt : list trigger) (s d : table) : list tstmt :=
  map TStmt (copy_stmts s d) ++ map (fun t => TTrigger (tg_sql t)) (match dt with [] => st | _ => dt end).
(** sqliteMigration.sql, sqlite_migration.go:247-375; [st] and [dt] are the triggers of the source and of the destination. *)
Definition sqlite_tstmts (st dt : bytes -> list trigger) (p : sqlite_plan) : result (list tstmt) :=
  bindr (flatr (fun a => bindr (copied a) (fun b => Ok [(a, b)])) (sp_alters p)) (fun alters =>
  let pragma := existsb snd alters in
  Ok (map TStmt (if pragma then [QPragma true] else [])
      ++ map TStmt (map (fun t => QDropTable (bare (tb_name t))) (sp_drop_tables p))
      ++ map TStmt (flat_map (fun t => QCreateTable (bare (tb_name t)) t
                            :: map (fun x => QCreateIndex (bare (ix_table x)) x false) (tb_indexes t)) (sp_create_tables p))
      ++ flat_map (fun '(a, b) => if (b : bool) then copy_tstmts (st (tb_name (sa_src a))) (dt (tb_name (sa_dest a))) (sa_src a) (sa_dest a)
                                  else map TStmt (alter_stmts_sqlite a false)) alters
      ++ map TStmt (if pragma then [QPragma false] else []))).
(** generate, from the rows of the triggers of the source. *)
Definition generate_with_triggers (rows : list (bytes * bytes * bytes)) (failed : bool) (dt : bytes -> list trigger) (src dest : catalog) (drop : bool)
  : result (list tstmt) :=
  bindr (get_triggers rows failed) (fun l =>
  bindr (new_sqlite_migration src dest drop) (fun p =>
  sqlite_tstmts (attach (match ct_schemas src with [] => [] | s :: _ => map tb_name (filter (fun t => negb (tb_ignore t)) (sc_tables s)) end) l) dt p)).
