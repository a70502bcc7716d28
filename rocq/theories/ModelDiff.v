(** Model of the comparison of two catalogs: newSQLiteMigration, newMySQLMigration,
    newPostgresMigration and newSQLServerMigration.  The loops of the code append to several
    lists at a time; where the lists do not depend on each other each is given on its own.
    Two pointers are the same if they point to the same position of the same list. *)
From Verif Require Import GoStr ModelCatalog ModelCache ModelDdl.

(** ** Loops whose body can panic *)
Fixpoint filterr {A} (f : A -> result bool) (l : list A) : result (list A) :=
  match l with
  | [] => Ok []
  | a :: l' => bindr (f a) (fun b => bindr (filterr f l') (fun r => Ok (if b then a :: r else r)))
  end.
Fixpoint flatr {A C} (f : A -> result (list C)) (l : list A) : result (list C) :=
  match l with
  | [] => Ok []
  | a :: l' => bindr (f a) (fun x => bindr (flatr f l') (fun r => Ok (x ++ r)))
  end.

(** ** Lookups *)
(** The object at the position that a Get function returns. *)
Definition value_at {A} (l : list A) (r : result (option nat)) : result (option A) :=
  bindr r (fun o =>
    match o with
    | None => Ok None
    | Some i => match nth_error l i with Some a => Ok (Some a) | None => Panic end
    end).
Definition look_schema (st : state) (n : bytes) : result (option schema) :=
  value_at (st_schemas st) (get_schema st n).
Definition look_table (c : cache) (s : schema) (n : bytes) : result (option table) :=
  value_at (sc_tables s) (get_table c s n).
Definition look_column (c : cache) (t : table) (n : bytes) : result (option column) :=
  value_at (tb_columns t) (get_column c t n).
Definition look_constraint (c : cache) (t : table) (n : bytes) : result (option constraint) :=
  value_at (tb_constraints t) (get_constraint c t n).
Definition look_index (c : cache) (t : table) (n : bytes) : result (option index) :=
  value_at (tb_indexes t) (get_index c t n).
Definition look_primary_key (c : cache) (t : table) : result (option constraint) :=
  value_at (tb_constraints t) (get_primary_key c t).

Definition is_none {A} (o : option A) : bool := match o with None => true | Some _ => false end.

(** The objects of a list that are not ignored and for which the lookup in the other
    catalog finds nothing. *)
Definition missing {A} (ignored : A -> bool) (look : A -> result (option A)) (l : list A) : result (list A) :=
  filterr (fun a => if ignored a then Ok false else bindr (look a) (fun o => Ok (is_none o))) l.
(** The other objects that are not ignored, each after its counterpart. *)
Definition shared {A} (ignored : A -> bool) (look : A -> result (option A)) (l : list A) : result (list (A * A)) :=
  flatr (fun a => if ignored a then Ok [] else
    bindr (look a) (fun o => Ok (match o with None => [] | Some b => [(b, a)] end))) l.

Definition missing_columns (c : cache) (t : table) : list column -> result (list column) :=
  missing col_ignore (fun x => look_column c t (col_name x)).
Definition shared_columns (c : cache) (t : table) : list column -> result (list (column * column)) :=
  shared col_ignore (fun x => look_column c t (col_name x)).
Definition missing_constraints (c : cache) (t : table) : list constraint -> result (list constraint) :=
  missing con_ignore (fun x => look_constraint c t (con_name x)).
Definition shared_constraints (c : cache) (t : table) : list constraint -> result (list (constraint * constraint)) :=
  shared con_ignore (fun x => look_constraint c t (con_name x)).
Definition missing_indexes (c : cache) (t : table) : list index -> result (list index) :=
  missing ix_ignore (fun x => look_index c t (ix_name x)).

(** ** Comparing columns *)
Definition teqb (a b : bytes * bytes * bytes) : bool :=
  let '(a1, a2, a3) := a in let '(b1, b2, b3) := b in beqb a1 b1 && beqb a2 b2 && beqb a3 b3.
Definition same_type (d : dialect) (a b : bytes) : result bool :=
  bindr (normalize_column_type d a) (fun x => bindr (normalize_column_type d b) (fun y => Ok (teqb x y))).
Definition same_default (d : dialect) (a b : bytes) : bool :=
  beqb (normalize_column_default d a) (normalize_column_default d b).
Definition is_empty (s : bytes) : bool := match s with [] => true | _ => false end.
Definition or_default (coll c : bytes) : bytes := if is_empty c then coll else c.
Definition same_collation (coll a b : bytes) : bool := beqb (or_default coll a) (or_default coll b).

(** columnsAreDifferent, sqlite_migration.go:180-193. *)
Definition differ_sqlite (a b : column) : bool :=
  negb (beqb (col_type a) (col_type b)) || negb (same_default SQLite (col_default a) (col_default b))
  || xorb (col_notnull a) (col_notnull b).
(** columnsAreDifferent, mysql_migration.go:180-209 and postgres_migration.go:254-283. *)
Definition differ (d : dialect) (coll : bytes) (a b : column) : result bool :=
  bindr (same_type d (col_type a) (col_type b)) (fun same =>
    Ok (negb same || negb (same_default d (col_default a) (col_default b))
        || (xorb (col_notnull a) (col_notnull b) && negb (col_pkey b))
        || xorb (is_empty (col_identity a)) (is_empty (col_identity b))
        || negb (same_collation coll (col_collation a) (col_collation b)))).
(** columnsAreDifferent, sqlserver_migration.go:291-317. *)
Definition differ_sqlserver (coll : bytes) (a b : column) : result bool :=
  bindr (same_type SQLServer (col_type a) (col_type b)) (fun same =>
    Ok (negb same || negb (same_default SQLServer (col_default a) (col_default b))
        || xorb (col_notnull a) (col_notnull b)
        || negb (same_collation coll (col_collation a) (col_collation b)))).

(** ** Changes *)
(** mysqlAlterTable, postgresAlterTable and sqlserverAlterTable: mysql_migration.go:23-33,
    postgres_migration.go:35-55, sqlserver_migration.go:37-55.  [al_alter_constraints] and
    [al_validate] are used for Postgres only, [al_pkey] for SQL Server only; columnTypes
    (sqlserver_migration.go:40) is never read. *)
Record alter := Alter {
  al_schema : bytes; al_table : bytes;
  al_drop_indexes : list index; al_drop_constraints : list constraint; al_drop_columns : list column;
  al_add_columns : list column; al_alter_columns : list (column * column);
  al_alter_constraints : list (constraint * constraint); al_validate : list column;
  al_create_indexes : list index; al_add_constraints : list constraint; al_pkey : option constraint
}.

(** The appends to the fields of mysqlMigration, postgresMigration and sqlserverMigration
    in the order of the program.  The keys of new tables are [ChFastFkey], the keys that
    SQL Server has to drop and add again are [ChRecreateFkey]. *)
Inductive change :=
| ChDropSchema (s : schema)
| ChCreateSchema (n : bytes)
| ChDropTable (t : table)
| ChCreateTable (t : table)
| ChAlterTable (a : alter)
| ChDropFkey (c : constraint)
| ChFastFkey (c : constraint)
| ChAddFkey (c : constraint)
| ChRecreateFkey (c : constraint)
| ChWarn (s t c : bytes).

Definition is_key (c : constraint) : bool := beqb (con_type c) PRIMARY_KEY || beqb (con_type c) UNIQUE.
Definition is_fkey (c : constraint) : bool := beqb (con_type c) FOREIGN_KEY.
Definition is_pkey (c : constraint) : bool := beqb (con_type c) PRIMARY_KEY.

Definition none {A} (l : list A) : bool := match l with [] => true | _ => false end.

(** The condition on which an ALTER TABLE is recorded: mysql_migration.go:257-262,
    postgres_migration.go:354-360 and sqlserver_migration.go:434-439. *)
Definition recorded (a : alter) : list change :=
  if none (al_drop_constraints a) && none (al_drop_indexes a) && none (al_add_columns a)
     && none (al_alter_columns a) && none (al_alter_constraints a) && none (al_create_indexes a)
     && none (al_add_constraints a)
  then [] else [ChAlterTable a].

Definition when {A} (b : bool) (r : result (list A)) : result (list A) := if b then r else Ok [].

(** ** MySQL *)
(** A table of both catalogs: mysql_migration.go:117-264.  [sc] and [s] are the cache and
    the table of the source, [dc] and [d] those of the destination. *)
Definition alter_mysql (cat : catalog) (drop : bool) (sc dc : cache) (s d : table) : result (list change) :=
  bindr (when drop (missing_constraints dc d (tb_constraints s))) (fun old_cons =>
  bindr (when drop (missing_indexes dc d (tb_indexes s))) (fun old_ixs =>
  bindr (when drop (missing_columns dc d (tb_columns s))) (fun old_cols =>
  bindr (missing_columns sc s (tb_columns d)) (fun new_cols =>
  bindr (shared_columns sc s (tb_columns d)) (fun pairs =>
  bindr (filterr (fun '(a, b) => differ MySQL (ct_collation cat) a b) pairs) (fun altered =>
  bindr (missing_indexes sc s (tb_indexes d)) (fun new_ixs =>
  bindr (missing_constraints sc s (tb_constraints d)) (fun new_cons =>
  bindr (shared_constraints sc s (tb_constraints d)) (fun cons =>
  (* mysql_migration.go:241-255: the primary key has other columns *)
  let zero := [ascii_of_nat 0] in
  let rekeyed := fun '(a, b) => is_pkey b && negb (beqb (join zero (con_columns a)) (join zero (con_columns b))) in
  bindr (flatr (fun b => if con_ignore b then Ok [] else
           bindr (look_constraint sc s (con_name b)) (fun o =>
             Ok (match o with
                 | None => if is_key b then [b] else []
                 | Some a => if rekeyed (a, b) then [b] else []
                 end))) (tb_constraints d)) (fun added =>
  Ok (map ChDropFkey (filter is_fkey old_cons) ++ map ChAddFkey (filter is_fkey new_cons)
      ++ recorded (Alter (tb_schema d) (tb_name d) old_ixs (filter is_key old_cons ++ map fst (filter rekeyed cons))
           old_cols new_cols altered [] [] new_ixs added None)))))))))))).

(** ** Postgres *)
(** A table of both catalogs: postgres_migration.go:185-362. *)
Definition alter_postgres (cat : catalog) (drop : bool) (sc dc : cache) (s d : table) : result (list change) :=
  bindr (when drop (missing_constraints dc d (tb_constraints s))) (fun old_cons =>
  bindr (when drop (missing_indexes dc d (tb_indexes s))) (fun old_ixs =>
  bindr (when drop (missing_columns dc d (tb_columns s))) (fun old_cols =>
  bindr (missing_columns sc s (tb_columns d)) (fun new_cols =>
  bindr (shared_columns sc s (tb_columns d)) (fun pairs =>
  bindr (filterr (fun '(a, b) => differ Postgres (ct_collation cat) a b) pairs) (fun altered =>
  (* postgres_migration.go:287-289 *)
  let validate := map snd (filter (fun '(a, b) =>
    negb (col_notnull a) && col_notnull b && negb (lower_than (map Z.of_nat (ct_version cat)) [12%Z])) altered) in
  bindr (missing_indexes sc s (tb_indexes d)) (fun new_ixs =>
  bindr (missing_constraints sc s (tb_constraints d)) (fun new_cons =>
  bindr (shared_constraints sc s (tb_constraints d)) (fun cons =>
  (* postgres_migration.go:337-341 *)
  let changed := filter (fun '(a, b) =>
    xorb (con_deferrable a) (con_deferrable b) || xorb (con_deferred a) (con_deferred b)) cons in
  (* postgres_migration.go:343-353 *)
  bindr (if existsb is_pkey new_cons && negb drop then look_primary_key sc s else Ok None) (fun old_pkey =>
  Ok (map ChDropFkey (filter is_fkey old_cons) ++ map ChAddFkey (filter is_fkey new_cons)
      ++ recorded (Alter (tb_schema d) (tb_name d) old_ixs
           (filter is_key old_cons ++ match old_pkey with Some c => [c] | None => [] end)
           old_cols new_cols altered changed validate new_ixs (filter is_key new_cons) None)))))))))))).

(** ** SQL Server *)
(** The objects that depend on a column, sqlserver_migration.go:376-398; an object that
    names the column twice is found twice. *)
Definition dependents {A} (columns : A -> list bytes) (l : list A) (n : bytes) : list A :=
  flat_map (fun a => repeat a (List.length (filter (beqb n) (columns a)))) l.
Definition live_only {A} (ignored : A -> bool) (l : list A) : list A := filter (fun a => negb (ignored a)) l.

(** A table of both catalogs: sqlserver_migration.go:199-441. *)
Definition alter_sqlserver (cat : catalog) (drop : bool) (sc dc : cache) (s d : table) : result (list change) :=
  bindr (when drop (missing_constraints dc d (tb_constraints s))) (fun old_cons =>
  bindr (when drop (missing_indexes dc d (tb_indexes s))) (fun old_ixs =>
  bindr (when drop (missing_columns dc d (tb_columns s))) (fun old_cols =>
  bindr (missing_columns sc s (tb_columns d)) (fun new_cols =>
  bindr (shared_columns sc s (tb_columns d)) (fun pairs =>
  (* sqlserver_migration.go:283-290; the text of the warning is left out *)
  let warned := filter (fun '(a, b) => is_empty (col_identity a) && negb (is_empty (col_identity b))) pairs in
  bindr (filterr (fun '(a, b) => differ_sqlserver (ct_collation cat) a b) pairs) (fun altered =>
  bindr (missing_indexes sc s (tb_indexes d)) (fun new_ixs =>
  bindr (missing_constraints sc s (tb_constraints d)) (fun new_cons =>
  bindr (get_primary_key dc d) (fun dest_pkey =>
  bindr (get_primary_key sc s) (fun src_pkey =>
  (* sqlserver_migration.go:366-374 *)
  let replaced :=
    match src_pkey, dest_pkey with
    | Some i, Some j =>
        match nth_error (tb_constraints s) i, nth_error (tb_constraints d) j with
        | Some a, Some b => if negb drop && negb (beqb (con_name a) (con_name b)) then [(i, a)] else []
        | _, _ => []
        end
    | _, _ => []
    end in
  (* droppedIndex and droppedConstraint, sqlserver_migration.go:212-213, 238, 250, 373 *)
  bindr (missing_indexes dc d (tb_indexes s)) (fun gone_ixs =>
  bindr (filterr (fun '(_, c) => if con_ignore c then Ok false else
           bindr (look_constraint dc d (con_name c)) (fun o => Ok (is_none o))) (indexed (tb_constraints s)))
    (fun gone_cons =>
  let dropped_ix (x : index) := drop && existsb (fun y => beqb (ix_name y) (ix_name x)) gone_ixs in
  let dropped_con (i : nat) := (drop && existsb (fun p => fst p =? i) gone_cons) || existsb (fun p => fst p =? i) replaced in
  (* sqlserver_migration.go:400-432 *)
  let dep_ixs := flat_map (fun p => filter (fun x => negb (dropped_ix x))
                   (dependents ix_columns (live_only ix_ignore (tb_indexes s)) (col_name (fst p)))) altered in
  let dep_cons := flat_map (fun p => filter (fun x => negb (dropped_con (fst x)))
                    (dependents (fun x => con_columns (snd x))
                       (filter (fun x => negb (con_ignore (snd x))) (indexed (tb_constraints s)))
                       (col_name (fst p)))) altered in
  let dep_keys := filter is_key (map snd dep_cons) in
  let schema := match tb_schema d with [] => match ct_current cat with [] => B"dbo" | n => n end | n => n end in
  let pkey := match rev (filter (fun c => is_pkey c && negb (con_ignore c)) (tb_constraints d)) with
              | c :: _ => Some c
              | [] => None
              end in
  Ok (map (fun p => ChWarn (tb_schema d) (tb_name d) (col_name (snd p))) warned
      ++ map ChDropFkey (filter is_fkey old_cons) ++ map ChAddFkey (filter is_fkey new_cons)
      ++ map ChRecreateFkey (filter is_fkey (map snd dep_cons))
      ++ recorded (Alter schema (tb_name d) (old_ixs ++ dep_ixs)
           (filter is_key old_cons ++ map snd replaced ++ dep_keys) old_cols new_cols altered [] []
           (new_ixs ++ dep_ixs) (filter is_key new_cons ++ dep_keys) pkey)))))))))))))).

(** ** The loops over schemas and tables *)
(** mysql_migration.go:42-67, postgres_migration.go:84-114 and sqlserver_migration.go:87-118;
    mysql_migration.go:68-268, postgres_migration.go:115-366 and sqlserver_migration.go:120-445. *)
Definition keys_of (c : cache) (t : table) (how : constraint -> change) : result (list change) :=
  bindr (get_foreign_keys c t) (fun l => Ok (map how l)).

Definition drop_schema (src dest : state) (s : schema) : result (list change) :=
  if sc_ignore s then Ok [] else
  bindr (look_schema dest (sc_name s)) (fun o =>
    match o with
    | Some _ => Ok []
    | None =>
        bindr (flatr (fun t => if tb_ignore t then Ok [] else keys_of (st_cache src) t ChDropFkey) (sc_tables s)) (fun l =>
        Ok ((if is_empty (sc_name s) then [] else [ChDropSchema s]) ++ l))
    end).

Definition create_table (dest : state) (t : table) : result (list change) :=
  bindr (keys_of (st_cache dest) t ChFastFkey) (fun l => Ok (ChCreateTable t :: l)).
Definition create_tables (dest : state) : list table -> result (list change) :=
  flatr (fun t => if tb_ignore t then Ok [] else create_table dest t).

Definition drop_tables (src dest : state) (ss ds : schema) : result (list change) :=
  flatr (fun t => if tb_ignore t then Ok [] else
    bindr (look_table (st_cache dest) ds (tb_name t)) (fun o =>
      match o with
      | Some _ => Ok []
      | None => bindr (keys_of (st_cache src) t ChDropFkey) (fun l => Ok (ChDropTable t :: l))
      end)) (sc_tables ss).

Definition alter_fun := catalog -> bool -> cache -> cache -> table -> table -> result (list change).

Definition change_table (alter_table : alter_fun) (cat : catalog) (drop : bool) (src dest : state) (ss : schema) (d : table)
  : result (list change) :=
  if tb_ignore d then Ok [] else
  bindr (look_table (st_cache src) ss (tb_name d)) (fun o =>
    match o with
    | None => create_table dest d
    | Some s => alter_table cat drop (st_cache src) (st_cache dest) s d
    end).

Definition change_schema (alter_table : alter_fun) (cat : catalog) (drop : bool) (src dest : state) (ds : schema)
  : result (list change) :=
  if sc_ignore ds then Ok [] else
  bindr (look_schema src (sc_name ds)) (fun o =>
    match o with
    | None =>
        bindr (create_tables dest (sc_tables ds)) (fun l =>
        Ok ((if is_empty (sc_name ds) then [] else [ChCreateSchema (sc_name ds)]) ++ l))
    | Some ss =>
        bindr (when drop (drop_tables src dest ss ds)) (fun l1 =>
        bindr (flatr (change_table alter_table cat drop src dest ss) (sc_tables ds)) (fun l2 => Ok (l1 ++ l2)))
    end).

Definition changes (alter_table : alter_fun) (src dest : catalog) (drop : bool) : result (list change) :=
  let ss := new_state (ct_schemas src) in
  let ds := new_state (ct_schemas dest) in
  bindr (when drop (flatr (drop_schema ss ds) (ct_schemas src))) (fun l1 =>
  bindr (flatr (change_schema alter_table src drop ss ds) (ct_schemas dest)) (fun l2 => Ok (l1 ++ l2))).

(** ** Grouping foreign keys *)
(** getTablesID, postgres_migration.go:68-83 and sqlserver_migration.go:69-85. *)
Definition tables_id (c : constraint) : key :=
  if bltb (con_refschema c) (con_schema c) || bltb (con_reftable c) (con_table c)
  then [con_refschema c; con_reftable c; con_schema c; con_table c]
  else [con_schema c; con_table c; con_refschema c; con_reftable c].

(** A field of type [][]*Constraint together with its map of positions. *)
Record groups := Groups { gr_list : list (list constraint); gr_pos : kmap }.
Definition no_groups : groups := Groups [] (fun _ => None).
(** E.g. postgres_migration.go:101-108. *)
Definition append_to (n : nat) (c : constraint) (l : list (list constraint)) : list (list constraint) :=
  set_nth n (nth n l [] ++ [c]) l.
Definition add_key (g : groups) (c : constraint) : groups :=
  match gr_pos g (tables_id c) with
  | Some n => Groups (append_to n c (gr_list g)) (gr_pos g)
  | None => Groups (gr_list g ++ [[c]]) (upd (gr_pos g) (tables_id c) (Some (List.length (gr_list g))))
  end.

(** mysqlMigration, postgresMigration and sqlserverMigration: mysql_migration.go:10-21,
    postgres_migration.go:10-33 and sqlserver_migration.go:9-35. *)
Record plan := Plan {
  pl_drop_fkeys : groups; pl_drop_schemas : list schema; pl_create_schemas : list bytes;
  pl_drop_tables : list table; pl_create_tables : list table; pl_alters : list alter;
  pl_fast_fkeys : groups; pl_add_fkeys : groups; pl_warnings : list (bytes * bytes * bytes)
}.
Definition empty_plan : plan := Plan no_groups [] [] [] [] [] no_groups no_groups [].

(** The lists of MySQL are not grouped: each key is a group of its own
    (mysql_migration.go:14 and 20), and new tables are not distinguished. *)
Definition alone (g : groups) (c : constraint) : groups := Groups (gr_list g ++ [[c]]) (gr_pos g).

Definition record_change (d : dialect) (p : plan) (c : change) : result plan :=
  let '(Plan dk dss css dts cts als fk ak ws) := p in
  let enter := match d with MySQL => alone | _ => add_key end in
  match c with
  | ChDropSchema s => Ok (Plan dk (dss ++ [s]) css dts cts als fk ak ws)
  | ChCreateSchema n => Ok (Plan dk dss (css ++ [n]) dts cts als fk ak ws)
  | ChDropTable t => Ok (Plan dk dss css (dts ++ [t]) cts als fk ak ws)
  | ChCreateTable t => Ok (Plan dk dss css dts (cts ++ [t]) als fk ak ws)
  | ChAlterTable a => Ok (Plan dk dss css dts cts (als ++ [a]) fk ak ws)
  | ChDropFkey c => Ok (Plan (enter dk c) dss css dts cts als fk ak ws)
  | ChFastFkey c =>
      Ok (match d with
          | MySQL => Plan dk dss css dts cts als fk (enter ak c) ws
          | _ => Plan dk dss css dts cts als (enter fk c) ak ws
          end)
  | ChAddFkey c => Ok (Plan dk dss css dts cts als fk (enter ak c) ws)
  | ChRecreateFkey c =>
      (* sqlserver_migration.go:415-430: positions of new groups are not recorded, and the
         new value of addFkeys[n2] is taken from addFastFkeys[n2] *)
      let dk' := match gr_pos dk (tables_id c) with
                 | Some n => Groups (append_to n c (gr_list dk)) (gr_pos dk)
                 | None => alone dk c
                 end in
      match gr_pos ak (tables_id c) with
      | Some n =>
          match nth_error (gr_list fk) n with
          | None => Panic
          | Some l => Ok (Plan dk' dss css dts cts als fk (Groups (set_nth n (l ++ [c]) (gr_list ak)) (gr_pos ak)) ws)
          end
      | None => Ok (Plan dk' dss css dts cts als fk (alone ak c) ws)
      end
  | ChWarn s t n => Ok (Plan dk dss css dts cts als fk ak (ws ++ [(s, t, n)]))
  end.
Fixpoint record_all (d : dialect) (p : plan) (l : list change) : result plan :=
  match l with
  | [] => Ok p
  | c :: l' => bindr (record_change d p c) (fun p => record_all d p l')
  end.

(** newMySQLMigration, mysql_migration.go:35-268. *)
Definition new_mysql_migration (src dest : catalog) (drop : bool) : result plan :=
  bindr (changes alter_mysql src dest drop) (record_all MySQL empty_plan).
(** newPostgresMigration, postgres_migration.go:57-366. *)
Definition new_postgres_migration (src dest : catalog) (drop : bool) : result plan :=
  bindr (changes alter_postgres src dest drop) (record_all Postgres empty_plan).
(** newSQLServerMigration, sqlserver_migration.go:57-445. *)
Definition new_sqlserver_migration (src dest : catalog) (drop : bool) : result plan :=
  bindr (changes alter_sqlserver src dest drop) (record_all SQLServer empty_plan).

(** ** SQLite *)
(** isVirtualTable, ddl.go:1081-1083. *)
Definition is_virtual (t : table) : bool := tb_virtual t || has_prefix (tb_sql t) (B"CREATE VIRTUAL TABLE").

(** sqlite_migration.go:57-92. *)
Definition name_kind_of (ty : bytes) : option name_kind :=
  if beqb ty PRIMARY_KEY then Some PKey
  else if beqb ty UNIQUE then Some UniqueKey
  else if beqb ty FOREIGN_KEY then Some FKey
  else None.
Definition named_constraint (c : constraint) : constraint :=
  match name_kind_of (con_type c) with
  | None => c
  | Some k =>
      Constraint (con_schema c) (con_table c) (generate_name k (con_table c) (con_columns c)) (con_type c) (con_columns c)
        (con_refschema c) (con_reftable c) (con_refcolumns c) (con_update c) (con_delete c) (con_match c) (con_check c)
        (con_operators c) (con_indextype c) (con_predicate c) (con_deferrable c) (con_deferred c) (con_clustered c)
        (con_notvalid c) (con_ignore c)
  end.
Definition named_table (t : table) : table :=
  if is_virtual t then t else with_constraints t (map named_constraint (tb_constraints t)).
Definition named_schema (s : schema) : schema := with_tables s (map named_table (sc_tables s)).

(** sqliteAlterTable, sqlite_migration.go:14-26.  The maps columnIsDropped and
    columnIsAdded are the names of the columns before they are emptied. *)
Record sqlite_alter := SqliteAlter {
  sa_src : table; sa_dest : table;
  sa_drop_indexes : list index; sa_drop_constraints : list constraint; sa_drop_columns : list column;
  sa_add_columns : list column; sa_alter_columns : list (column * column);
  sa_add_constraints : list constraint; sa_create_indexes : list index;
  sa_is_dropped : list bytes; sa_is_added : list bytes
}.
(** sqliteMigration, sqlite_migration.go:8-12. *)
Record sqlite_plan := SqlitePlan {
  sp_drop_tables : list table; sp_create_tables : list table; sp_alters : list sqlite_alter
}.

(** A table of both catalogs: sqlite_migration.go:124-242. *)
Definition alter_sqlite (drop : bool) (sc dc : cache) (s d : table) : result (list sqlite_alter) :=
  bindr (missing_constraints dc d (tb_constraints s)) (fun old_cons =>
  bindr (missing_indexes dc d (tb_indexes s)) (fun old_ixs =>
  bindr (missing_columns dc d (tb_columns s)) (fun old_cols =>
  bindr (missing_columns sc s (tb_columns d)) (fun new_cols =>
  bindr (shared_columns sc s (tb_columns d)) (fun pairs =>
  let altered := filter (fun '(a, b) => differ_sqlite a b) pairs in
  bindr (missing_indexes sc s (tb_indexes d)) (fun new_ixs =>
  bindr (missing_constraints sc s (tb_constraints d)) (fun new_cons =>
  let dropped := map col_name old_cols in
  let added := map col_name new_cols in
  Ok (if none old_cons && none old_ixs && none new_cols && none altered && none new_ixs && none new_cons then []
      else if drop then [SqliteAlter s d old_ixs old_cons old_cols new_cols altered new_cons new_ixs dropped added]
      else if none new_cols && none new_ixs then []
      else [SqliteAlter s d [] [] [] new_cols [] [] new_ixs dropped added])))))))).

(** newSQLiteMigration, sqlite_migration.go:28-245. *)
Definition new_sqlite_migration (src dest : catalog) (drop : bool) : result sqlite_plan :=
  let ordinary := filter (fun t => negb (is_virtual t)) in
  match ct_schemas src, ct_schemas dest with
  | [], [] => Ok (SqlitePlan [] [] [])
  | s :: _, [] => Ok (SqlitePlan (if drop then ordinary (sc_tables s) else []) [] [])
  | [], d :: _ => Ok (SqlitePlan [] (ordinary (sc_tables d)) [])
  | _ :: _, _ :: _ =>
      let srcs := map named_schema (ct_schemas src) in
      let dests := map named_schema (ct_schemas dest) in
      let sc := new_cache srcs in
      let dc := new_cache dests in
      match srcs, dests with
      | s :: _, d :: _ =>
          let skip (t : table) := tb_ignore t || is_virtual t in
          bindr (when drop (filterr (fun t => if skip t then Ok false else
                   bindr (look_table dc d (tb_name t)) (fun o => Ok (is_none o))) (sc_tables s))) (fun dropped =>
          bindr (filterr (fun t => if skip t then Ok false else
                   bindr (look_table sc s (tb_name t)) (fun o => Ok (is_none o))) (sc_tables d)) (fun created =>
          bindr (flatr (fun t => if skip t then Ok [] else
                   bindr (look_table sc s (tb_name t)) (fun o =>
                     match o with
                     | None => Ok []
                     | Some u => alter_sqlite drop sc dc u t
                     end)) (sc_tables d)) (fun alters =>
          Ok (SqlitePlan dropped created alters))))
      | _, _ => Panic
      end
  end.
