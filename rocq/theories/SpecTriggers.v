(** The triggers of a SQLite database, and what the statements of a migration do to them.

    Simplified: names are compared as they are written; only names of tables and triggers are kept; the
    environment may refuse any statement. *)
From Coq Require Import Permutation.
From Verif Require Import GoStr ModelCatalog ModelDiffSql SpecDiff SpecRebuild ModelTriggers.

(** A row of sqlite_schema: the text ends with END, without a semicolon. *)
Record dtrigger := DTrigger { dt_name : bytes; dt_table : bytes; dt_sql : bytes }.
Record tdb := TDb { td_tables : list bytes; td_triggers : list dtrigger }.
(** What the parser of SQLite reads from the text of a trigger (its name and its table); what is refused; how the text of a
    trigger changes if its table gets another name. *)
Record tenv := TEnv { te_parse : bytes -> option (bytes * bytes); te_refuses : tdb -> tstmt -> bool; te_rewrite : bytes -> bytes -> bytes -> bytes }.

Definition teffect (e : tenv) (db : tdb) (s : tstmt) : option tdb :=
  match s with
  | TStmt (QCreateTable q _) => if bmem (snd q) (td_tables db) then None else Some (TDb (td_tables db ++ [snd q]) (td_triggers db))
  | TStmt (QDropTable q) =>
      if bmem (snd q) (td_tables db)
      then Some (TDb (filter (fun n => negb (beqb n (snd q))) (td_tables db)) (filter (fun g => negb (beqb (dt_table g) (snd q))) (td_triggers db)))
      else None
  | TStmt (QRename q n) =>
      if bmem (snd q) (td_tables db) && negb (bmem n (td_tables db))
      then Some (TDb (map (fun m => if beqb m (snd q) then n else m) (td_tables db))
                   (map (fun g => if beqb (dt_table g) (snd q) then DTrigger (dt_name g) n (te_rewrite e (snd q) n (dt_sql g)) else g) (td_triggers db)))
      else None
  | TStmt (QCopyRows _ _ _) | TStmt (QDropColumn _ _) | TStmt (QAddColumn _ _) | TStmt (QCreateIndex _ _ _) | TStmt (QDropIndex _ _) | TStmt (QPragma _) => Some db
  | TStmt _ => None
  | TTrigger sql =>
      match te_parse e sql with
      | Some (n, t) =>
          if bmem t (td_tables db) && negb (bmem n (map dt_name (td_triggers db)))
          then Some (TDb (td_tables db) (td_triggers db ++ [DTrigger n t (trim_suffix sql (B";"))]))
          else None
      | None => None
      end
  end.
Fixpoint trun (e : tenv) (l : list tstmt) (db : tdb) : option tdb :=
  match l with
  | [] => Some db
  | s :: l' => if te_refuses e db s then None else match teffect e db s with Some db' => trun e l' db' | None => None end
  end.

(** A database: the triggers have different names, the tables of all triggers exist, and the texts of the triggers are what
    the parser reads. *)
Definition tdb_ok (e : tenv) (db : tdb) : Prop :=
  NoDup (td_tables db) /\ NoDup (map dt_name (td_triggers db))
  /\ forall g, In g (td_triggers db) -> In (dt_table g) (td_tables db) /\ te_parse e (dt_sql g ++ B";") = Some (dt_name g, dt_table g).
(** The answer to the query of the triggers (sqlite_triggers.sql): all of them, or, if the reading fails, the first ones. *)
Definition answers (db : tdb) (rows : list (bytes * bytes * bytes)) (failed : bool) : Prop :=
  exists all, Permutation all (map (fun g => (dt_table g, dt_name g, dt_sql g ++ B";")) (td_triggers db))
    /\ if failed then exists more, all = rows ++ more else all = rows.
(** The catalog is that of the database. *)
Definition tagrees (db : tdb) (c : catalog) : Prop := forall t, In t (the_schema c) -> In (tb_name t) (td_tables db).
(** A trigger that is still asked for: its table is not dropped, and the destination has it, or has no triggers of this table at
    all (as is the case for table structs). *)
Definition trigger_stays (drop : bool) (dest : catalog) (dt : bytes -> list trigger) (g : dtrigger) : Prop :=
  table_stays drop dest (dt_table g)
  /\ (dt (dt_table g) = [] \/ In (dt_sql g ++ B";") (map tg_sql (dt (dt_table g)))).
Definition triggers_stay (drop : bool) (dest : catalog) (dt : bytes -> list trigger) (db db' : tdb) : Prop :=
  forall g, In g (td_triggers db) -> trigger_stays drop dest dt g -> In g (td_triggers db').
(** The text has no Windows line ends. *)
Definition no_crlf (s : bytes) : Prop := forall a b, s <> a ++ CR :: LF :: b.
