(** The numbers that SQLite gives to new rows of tables with AUTOINCREMENT, and what the statements of a migration do to them
    (https://www.sqlite.org/autoinc.html): the table sqlite_sequence has the largest number that was ever given for each such
    table, rows inserted with larger numbers raise it, dropping a table removes its entry, and renaming a table renames it.

    Simplified: numbers are not negative and written in decimal. *)
From Verif Require Import GoStr ModelCatalog ModelDiffSql SpecRebuild.

Definition id_of (v : val) : N := match v with Val s => match dec_N s with Some n => n | None => 0%N end | Null => 0%N end.
(** The column with AUTOINCREMENT and the largest number given, by the names of the tables. *)
Record counters := Counters { co_column : bytes -> option bytes; co_last : bytes -> N }.
(** The number that the next row gets. *)
Definition next_id (k : counters) (n : bytes) : N := (co_last k n + 1)%N.

Definition set_counter (k : counters) (n : bytes) (c : option bytes) (last : N) : counters :=
  Counters (fun m => if beqb m n then c else co_column k m) (fun m => if beqb m n then last else co_last k m).
Definition auto_column (t : table) : option bytes :=
  match filter col_autoincrement (tb_columns t) with c :: _ => Some (col_name c) | [] => None end.
Fixpoint largest (l : list N) : N := match l with [] => 0%N | n :: l' => N.max n (largest l') end.

(** After the statement [s], which is run in the database [db]. *)
Definition counted (e : env) (db : sdb) (k : counters) (s : stmt) : counters :=
  match s with
  | QCreateTable q t => set_counter k (snd q) (auto_column t) 0
  | QCopyRows a b cols =>
      match co_column k (snd b), sfind db (snd a) with
      | Some c, Some x =>
          set_counter k (snd b) (Some c)
            (N.max (co_last k (snd b)) (largest (map (fun r => id_of (copied_row e (snd b) cols r c)) (st_rows x))))
      | _, _ => k
      end
  | QDropTable q => set_counter k (snd q) None 0
  | QRename q n => set_counter (set_counter k (snd q) None 0) n (co_column k (snd q)) (co_last k (snd q))
  | _ => k
  end.
Fixpoint run_counted (e : env) (l : list stmt) (db : sdb) (k : counters) : option (sdb * counters) :=
  match l with
  | [] => Some (db, k)
  | s :: l' =>
      if en_refuses e db s then None
      else match effect e db s with Some db' => run_counted e l' db' (counted e db k s) | None => None end
  end.

(** No row has a number that is larger than the largest one given. *)
Definition counted_well (c : bytes) (db : sdb) (k : counters) : Prop :=
  forall x r, In x db -> In r (st_rows x) -> co_column k (st_name x) = Some c -> (id_of (r c) <= co_last k (st_name x))%N.
