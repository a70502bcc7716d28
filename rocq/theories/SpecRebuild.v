(** The rows of a SQLite database, and what the statements of a migration do to them.

    Simplified: names are compared as they are written; values are not converted when they are stored
    in a column of another type; whether a statement is accepted (unique keys, checks, NOT NULL, views
    that use a table, ...) is given by the environment, which may refuse any statement; a column that is
    added with a foreign key is NULL in all rows, so that its key does not matter here. *)
From Verif Require Import GoStr ModelCatalog ModelDiffSql SpecDiff.

Inductive val := Null | Val (s : bytes).
Definition veqb (a b : val) : bool := match a, b with Val x, Val y => beqb x y | _, _ => false end.
Definition row := bytes -> val.
Inductive action := NoAction | Restrict | Cascade | SetNull | SetDefault.
Record fkey := FKey { fk_columns : list bytes; fk_table : bytes; fk_refs : list bytes; fk_action : action }.
Record stable := STable { st_name : bytes; st_columns : list bytes; st_key : list bytes; st_fkeys : list fkey; st_rows : list row }.
Definition sdb := list stable.
(** PRAGMA foreign_keys, what is refused, and the values of columns that are not given. *)
Record env := Env { en_fkeys : bool; en_refuses : sdb -> stmt -> bool; en_default : bytes -> bytes -> val }.

Definition sfind (db : sdb) (n : bytes) : option stable := find (fun x => beqb (st_name x) n) db.
Definition sremove (db : sdb) (n : bytes) : sdb := filter (fun x => negb (beqb (st_name x) n)) db.
Definition supdate (db : sdb) (n : bytes) (f : stable -> stable) : sdb := map (fun x => if beqb (st_name x) n then f x else x) db.
Definition with_rows (x : stable) (l : list row) : stable := STable (st_name x) (st_columns x) (st_key x) (st_fkeys x) l.

(** ** Deleting rows (https://www.sqlite.org/foreignkeys.html) *)
Fixpoint same_values (cols : list bytes) (r : row) (refs : list bytes) (p : row) : bool :=
  match cols, refs with
  | [], [] => true
  | c :: cols, k :: refs => veqb (r c) (p k) && same_values cols r refs p
  | _, _ => false
  end.
(** The row [r] refers by the key [f] to the row [p] of the table [n] with the primary key [key]. *)
Definition refers (n : bytes) (key : list bytes) (p : row) (f : fkey) (r : row) : bool :=
  beqb (fk_table f) n && negb (match fk_columns f with [] => true | _ => false end)
  && same_values (fk_columns f) r (match fk_refs f with [] => key | l => l end) p.
Definition is_action (a b : action) : bool :=
  match a, b with
  | NoAction, NoAction | Restrict, Restrict | Cascade, Cascade | SetNull, SetNull | SetDefault, SetDefault => true
  | _, _ => false
  end.
Definition set_columns (cols : list bytes) (v : bytes -> val) (r : row) : row :=
  match cols with [] => r | _ => fun c => if existsb (beqb c) cols then v c else r c end.
(** What becomes of a row when a row to which it refers is deleted; [None]: the row is deleted, too. *)
Definition after (e : env) (x : stable) (hits : list fkey) (r : row) : option row :=
  if existsb (fun f => is_action (fk_action f) Cascade) hits then None
  else Some (set_columns (flat_map (fun f => if is_action (fk_action f) SetNull then fk_columns f else []) hits) (fun _ => Null)
               (set_columns (flat_map (fun f => if is_action (fk_action f) SetDefault then fk_columns f else []) hits) (en_default e (st_name x)) r)).
Definition hits (n : bytes) (key : list bytes) (p : row) (x : stable) (r : row) : list fkey := filter (fun f => refers n key p f r) (st_fkeys x).
(** A deleted row: its table, the key of the table, and the row. *)
Definition gone := (bytes * list bytes * row)%type.
Definition restricted (g : gone) (x : stable) : bool :=
  let '(n, key, p) := g in existsb (fun r => existsb (fun f => is_action (fk_action f) Restrict) (hits n key p x r)) (st_rows x).
Fixpoint keep_rows (f : row -> option row) (l : list row) : list row * list row :=
  match l with
  | [] => ([], [])
  | r :: l' => let '(kept, lost) := keep_rows f l' in match f r with Some r' => (r' :: kept, lost) | None => (kept, r :: lost) end
  end.
Definition child (e : env) (g : gone) (x : stable) : stable * list gone :=
  let '(n, key, p) := g in
  let '(kept, lost) := keep_rows (fun r => after e x (hits n key p x r) r) (st_rows x) in
  (with_rows x kept, map (fun r => (st_name x, st_key x, r)) lost).
(** The rows [todo] have been deleted; [done] are those whose children are finished. *)
Fixpoint cascade (fuel : nat) (e : env) (todo done : list gone) (db : sdb) : option (list gone * sdb) :=
  match todo with
  | [] => Some (done, db)
  | g :: todo' =>
      match fuel with
      | O => None
      | S fuel' =>
          if existsb (restricted g) db then None
          else let l := map (child e g) db in cascade fuel' e (todo' ++ flat_map snd l) (g :: done) (map fst l)
      end
  end.
(** References that are left dangling are refused: at once, or, if they are deferred, at the end of the transaction. *)
Definition dangling (g : gone) (x : stable) : bool :=
  let '(n, key, p) := g in existsb (fun r => existsb (fun f => is_action (fk_action f) NoAction) (hits n key p x r)) (st_rows x).
Definition total (db : sdb) : nat := list_sum (map (fun x => List.length (st_rows x)) db).
(** DROP TABLE first deletes all rows if foreign keys are checked. *)
Definition drop_table (e : env) (db : sdb) (x : stable) : option sdb :=
  let rest := sremove db (st_name x) in
  if en_fkeys e then
    match cascade (S (total db)) e (map (fun r => (st_name x, st_key x, r)) (st_rows x)) [] rest with
    | Some (done, db') => if existsb (fun g => existsb (dangling g) db') done then None else Some db'
    | None => None
    end
  else Some rest.

(** ** The statements *)
Definition action_of (s : bytes) : action :=
  if beqb s (B"CASCADE") then Cascade else if beqb s (B"SET NULL") then SetNull else if beqb s (B"SET DEFAULT") then SetDefault
  else if beqb s (B"RESTRICT") then Restrict else NoAction.
Definition fkeys_of (t : table) : list fkey :=
  map (fun c => FKey (con_columns c) (con_reftable c) (con_refcolumns c) (action_of (con_delete c)))
    (filter (fun c => beqb (con_type c) (B"FOREIGN KEY")) (tb_constraints t)).
Definition key_of (t : table) : list bytes := flat_map con_columns (filter (fun c => beqb (con_type c) (B"PRIMARY KEY")) (tb_constraints t)).
Definition copied_row (e : env) (n : bytes) (cols : list bytes) (r : row) : row := fun c => if existsb (beqb c) cols then r c else en_default e n c.
Definition renamed (a n : bytes) (x : stable) : stable :=
  STable (if beqb (st_name x) a then n else st_name x) (st_columns x) (st_key x)
    (map (fun f => if beqb (fk_table f) a then FKey (fk_columns f) n (fk_refs f) (fk_action f) else f) (st_fkeys x)) (st_rows x).
Definition effect (e : env) (db : sdb) (s : stmt) : option sdb :=
  match s with
  | QCreateTable q t =>
      match sfind db (snd q) with
      | Some _ => None
      | None => Some (db ++ [STable (snd q) (map col_name (tb_columns t)) (key_of t) (fkeys_of t) []])
      end
  | QCopyRows a b cols =>
      match sfind db (snd a), sfind db (snd b) with
      | Some x, Some _ => Some (supdate db (snd b) (fun y => with_rows y (st_rows y ++ map (copied_row e (snd b) cols) (st_rows x))))
      | _, _ => None
      end
  | QDropTable q => match sfind db (snd q) with Some x => drop_table e db x | None => None end
  | QRename q n =>
      match sfind db (snd q), sfind db n with
      | Some _, None => Some (map (renamed (snd q) n) db)
      | _, _ => None
      end
  | QDropColumn q c =>
      match sfind db (snd q) with
      | Some _ => Some (supdate db (snd q) (fun x => STable (st_name x) (filter (fun n => negb (beqb n c)) (st_columns x)) (st_key x) (st_fkeys x) (st_rows x)))
      | None => None
      end
  | QAddColumn q c =>
      match sfind db (snd q) with
      | Some x =>
          if existsb (beqb (col_name c)) (st_columns x) then None
          else Some (supdate db (snd q) (fun x => STable (st_name x) (st_columns x ++ [col_name c]) (st_key x) (st_fkeys x)
                       (map (set_columns [col_name c] (en_default e (snd q))) (st_rows x))))
      | None => None
      end
  | QCreateIndex _ _ _ | QDropIndex _ _ | QPragma _ => Some db
  | _ => None
  end.
Fixpoint run_all (e : env) (l : list stmt) (db : sdb) : option sdb :=
  match l with
  | [] => Some db
  | s :: l' => if en_refuses e db s then None else match effect e db s with Some db' => run_all e l' db' | None => None end
  end.

(** ** What is asked for (ignored tables and columns do not exist) *)
Definition the_schema (c : catalog) : list table := match ct_schemas c with [] => [] | s :: _ => sc_tables s end.
Definition the_table (c : catalog) (n : bytes) : option table := the tb_name tb_ignore (the_schema c) n.
Definition the_column (t : table) (n : bytes) : option column := the col_name col_ignore (tb_columns t) n.
(** The database has the tables of the catalog, and these tables have no columns that are not in the catalog. *)
Definition agrees (db : sdb) (c : catalog) : Prop :=
  NoDup (map st_name db) /\ forall t, In t (the_schema c) ->
    exists x, sfind db (tb_name t) = Some x /\ forall n, In n (st_columns x) -> In n (map col_name (tb_columns t)).
(** Tables and columns that are not to be dropped, and whose values are not computed. *)
Definition table_stays (drop : bool) (dest : catalog) (n : bytes) : Prop := drop = false \/ the_table dest n <> None.
Definition column_stays (drop : bool) (dest : catalog) (n c : bytes) : Prop :=
  drop = false \/ exists t col, the_table dest n = Some t /\ the_column t c = Some col /\ col_generated col = false /\ col_expr col = [].
Definition rows_stay (P : bytes -> Prop) (x y : stable) : Prop :=
  Forall2 (fun r r' : row => forall c, In c (st_columns x) -> P c -> r' c = r c) (st_rows x) (st_rows y)
  /\ forall c, In c (st_columns x) -> P c -> In c (st_columns y).
Definition data_stays (drop : bool) (dest : catalog) (db db' : sdb) : Prop :=
  forall n x, sfind db n = Some x -> table_stays drop dest n ->
    exists y, sfind db' n = Some y /\ rows_stay (column_stays drop dest n) x y.

(** A migration after which nothing refers to what it drops: foreign keys are not checked, or no table with rows, and no
    new table that gets rows, refers to a table that the migration drops or renames. *)
Definition touched (l : list stmt) (n : bytes) : Prop := (exists q, In (QDropTable q) l /\ snd q = n) \/ (exists q m, In (QRename q m) l /\ snd q = n).
Definition calm (e : env) (l : list stmt) (db : sdb) : Prop :=
  en_fkeys e = false
  \/ (forall x f, In x db -> st_rows x <> [] -> In f (st_fkeys x) -> ~ touched l (fk_table f))
     /\ (forall q t f a cols, In (QCreateTable q t) l -> In (QCopyRows a q cols) l -> In f (fkeys_of t) -> ~ touched l (fk_table f)).
