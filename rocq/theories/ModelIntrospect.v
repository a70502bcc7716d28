(** Model of DatabaseIntrospector.WriteCatalog, database_introspector.go:46-267, for tables, columns,
    constraints and indexes, with GetTables (1246-1299), GetConstraints (659-827) and GetIndexes
    (959-1129) and the scripts they use (introspection_scripts/*_tables.sql, *_columns.sql,
    *_constraints.sql, *_indexes.sql).

    Simplified: columns are given as GetColumns returns them; comments, stored texts, views and
    triggers are left out; the rows of a query come in the order of the database; the version of
    SQLite is 3.37 or later, that of MySQL 8; JSON arrays of names are read as they were written;
    indexes of SQLite have columns only, no expressions; names are compared as they are written. *)
From Verif Require Import GoStr ModelCatalog ModelCache ModelDdl ModelWipe.

(** ** The database *)
(** A table as the catalogs of the database have it.  A table of another kind is a partitioned table of
    Postgres or a shadow table of SQLite; a quoted table has a text that begins with
    CREATE TABLE and a single quote (SQLite).  Indexes are those that do not belong to a constraint. *)
Record live_table := LiveTable { lv_table : table; lv_ordinary : bool; lv_quoted : bool }.
Definition live_schema := (bytes * list live_table)%type.
Definition database := list live_schema.

(** ** The scripts *)
(** Filter, database_introspector.go:1544-1622. *)
Record choice := Choice {
  f_system : bool; f_schemas : list bytes; f_exschemas : list bytes; f_tables : list bytes; f_extables : list bytes
}.
(** {{ if .Tables }} AND name IN (...) {{ else if .ExcludeTables }} AND name NOT IN (...) {{ end }},
    e.g. sqlite_tables.sql:19-23, with the list of mklist (database_introspector.go:1638-1667), which
    leaves out empty names. *)
Definition some_names (l : list bytes) : list bytes := filter (fun n => negb (beqb n [])) l.
Definition listed (l ex : list bytes) (n : bytes) : bool :=
  match l, ex with
  | _ :: _, _ => bmem n (some_names l)
  | [], _ :: _ => negb (bmem n (some_names ex))
  | [], [] => true
  end.
(** An empty list in brackets is an error of the database, except for SQLite. *)
Definition bad_list (l ex : list bytes) : bool :=
  match l, ex with
  | _ :: _, _ => match some_names l with [] => true | _ => false end
  | [], _ :: _ => match some_names ex with [] => true | _ => false end
  | [], [] => false
  end.
Definition bad_filter (d : dialect) (f : choice) : bool :=
  match d with SQLite => false | _ => bad_list (f_schemas f) (f_exschemas f) || bad_list (f_tables f) (f_extables f) end.
(** What all scripts have in common. *)
Definition in_scope (d : dialect) (f : choice) (s t : bytes) : bool :=
  (f_system f || (schema_listed d s && relation_listed d t))
  && match d with SQLite => true | _ => listed (f_schemas f) (f_exschemas f) s end
  && listed (f_tables f) (f_extables f) t.
(** sqlite_tables.sql:8-18, postgres_tables.sql:10: tables of other kinds are left out. *)
Definition table_listed (d : dialect) (f : choice) (s : bytes) (x : live_table) : bool :=
  in_scope d f s (tb_name (lv_table x))
  && (lv_ordinary x || match d with SQLite => f_system f | _ => false end).
(** sqlite_columns.sql:14-23, postgres_columns.sql: pg_class.relkind. *)
Definition unquoted (d : dialect) (f : choice) (x : live_table) : bool :=
  match d with SQLite => f_system f || negb (lv_quoted x) | _ => true end.
Definition columns_listed (d : dialect) (f : choice) (s : bytes) (x : live_table) : bool :=
  in_scope d f s (tb_name (lv_table x)) && unquoted d f x && match d with SQLite => true | _ => lv_ordinary x end.
(** sqlite_constraints.sql:31-39, postgres_constraints.sql: no condition on relkind. *)
Definition keys_listed (d : dialect) (f : choice) (s : bytes) (x : live_table) : bool :=
  in_scope d f s (tb_name (lv_table x)) && unquoted d f x.

(** ** Rows *)
(** Names that are put together by group_concat or string_agg and split again,
    database_introspector.go:706-711, 769-774, 796-801; Postgres uses JSON. *)
Definition split_some (s : bytes) : list bytes := match s with [] => [] | _ => split_byte ","%char s end.
Definition names_read (d : dialect) (names : list bytes) : list bytes :=
  match d with
  | Postgres => names
  | _ => split_some (join (B",") names)
  end.
(** The text of a check constraint: pg_get_constraintdef, check_clause, definition. *)
Definition check_text (d : dialect) (c : constraint) : bytes :=
  match con_check c with
  | [] => []
  | e => match d with
         | Postgres => B"CHECK (" ++ e ++ B")" ++ (if con_notvalid c then B" NOT VALID" else [])
         | _ => B"(" ++ e ++ B")"
         end
  end.
(** database_introspector.go:749, 775, 804. *)
Definition check_read (d : dialect) (text : bytes) : bytes :=
  match d with
  | Postgres => unwrap_brackets (trim_prefix text (B"CHECK "))
  | MySQL | SQLServer => unwrap_brackets text
  | _ => text
  end.
(** The rules: SQL Server writes them with underscores, database_introspector.go:802-803, 818-823. *)
Definition rule_text (d : dialect) (r : bytes) : bytes :=
  match d with SQLServer => replace_byte SPACE (B"_") r | _ => r end.
Definition rule_read (d : dialect) (text : bytes) : bytes :=
  let r := match d with SQLServer => replace_byte "_"%char (B" ") text | _ => text end in
  if beqb r (B"NO ACTION") then [] else r.
(** A row of the constraints, read. *)
Definition constraint_read (d : dialect) (c : constraint) (cols refs : list bytes) : constraint :=
  Constraint (con_schema c) (con_table c) (con_name c) (con_type c) (names_read d cols) (con_refschema c)
    (con_reftable c) (names_read d refs) (rule_read d (rule_text d (con_update c))) (rule_read d (rule_text d (con_delete c)))
    (con_match c) (check_read d (check_text d c)) (con_operators c) (con_indextype c) (con_predicate c)
    (con_deferrable c) (con_deferred c) (con_clustered c) (con_notvalid c) (con_ignore c).
(** mysql_constraints.sql: the columns of a constraint are found by its name, so that those of another
    constraint of the table with this name (a foreign key, which may have the name of a unique key) are
    taken as well: a unique key gets them all, a foreign key gets another row for them.  Nor does the
    query for the checks look at the type of the constraint: a key that has the name of a check of the
    schema is reported as a check, too. *)
Definition other_named (l : list constraint) (c : constraint) : list constraint :=
  filter (fun o => beqb (con_name o) (con_name c) && negb (beqb (con_type o) (con_type c)) && negb (beqb (con_type o) CHECK)) l.
Definition key_row (d : dialect) (l : list constraint) (c : constraint) : list constraint :=
  if beqb (con_type c) FOREIGN_KEY then
    constraint_read d c (con_columns c) (con_refcolumns c)
    :: map (fun o =>
         constraint_read d
           (Constraint (con_schema c) (con_table c) (con_name c) FOREIGN_KEY (con_columns o) [] [] []
              (con_update c) (con_delete c) (con_match c) [] [] [] [] false false false false false) (con_columns o) [])
         (other_named l c)
  else [constraint_read d c (con_columns c ++ flat_map con_columns (other_named l c)) []].
Definition check_row (d : dialect) (c k : constraint) : constraint :=
  constraint_read d
    (Constraint (con_schema c) (con_table c) (con_name c) CHECK [] [] [] [] [] [] [] (con_check k) [] [] [] false false false false false) [] [].
(** [l] are the constraints of the table, [all] those of the schema. *)
Definition constraint_rows (d : dialect) (all l : list constraint) (c : constraint) : list constraint :=
  match d with
  | MySQL =>
      (if beqb (con_type c) CHECK then [] else key_row d l c)
      ++ map (check_row d c) (filter (fun k => beqb (con_type k) CHECK && beqb (con_name k) (con_name c)) all)
  | _ => [constraint_read d c (con_columns c) (con_refcolumns c)]
  end.
Definition schema_constraints (s : live_schema) : list constraint :=
  flat_map (fun x => tb_constraints (lv_table x)) (snd s).

(** Indexes.  Postgres and MySQL leave out those with the name of a constraint (of any table):
    postgres_indexes.sql, mysql_indexes.sql. *)
Definition all_constraint_names (db : database) : list bytes := map con_name (flat_map schema_constraints db).
Definition index_listed (d : dialect) (db : database) (x : index) : bool :=
  match d with Postgres | MySQL => negb (bmem (ix_name x) (all_constraint_names db)) | _ => true end.
(** sqlserver_indexes.sql: the included columns come first (their key_ordinal is 0). *)
Definition bool_text (b : bool) : bytes := if b then B"1" else B"0".
Definition parse_bool (s : bytes) : bool := beqb s (B"1").
(** The loop over the columns, database_introspector.go:1094-1100: reading include[i] panics when i is
    the length of the slice. *)
Fixpoint share_out (i n : nat) (include : list bool) (cols : list bytes) : result (list bytes * list bytes) :=
  match cols with
  | [] => Ok ([], [])
  | c :: cols' =>
      bindr (if i <=? n then match nth_error include i with Some b => Ok b | None => Panic end else Ok false) (fun b : bool =>
      bindr (share_out (S i) n include cols') (fun '(key, inc) => Ok (if b then (key, c :: inc) else (c :: key, inc))))
  end.
(** database_introspector.go:1066-1109. *)
Definition sqlserver_index (x : index) : result index :=
  let columns := join (B",") (ix_include x ++ ix_columns x) in
  let descending := join (B",") (map (fun _ => B"0") (ix_include x) ++ map bool_text (ix_descending x)) in
  let included := join (B",") (map (fun _ => B"1") (ix_include x) ++ map (fun _ => B"0") (ix_columns x)) in
  let include := map parse_bool (split_some included) in
  bindr (share_out 0 (List.length include) include (split_some columns)) (fun '(key, inc) =>
  let desc := map parse_bool (split_some descending) in
  if (List.length inc <=? List.length desc) || match descending with [] => true | _ => false end
  then Ok (Index (ix_schema x) (ix_table x) (ix_name x) (ix_type x) (ix_unique x) key inc
             (skipn (List.length inc) desc) (ix_opclasses x) (ix_predicate x) (ix_sql x) (ix_ignore x))
  else Panic).
(** pg_get_indexdef writes a name that is not a plain one in quotes (keywords are left out). *)
Definition pg_plain (n : bytes) : bool :=
  match n with
  | [] => false
  | c :: _ =>
      negb (is_digit c)
      && forallb (fun c => is_digit c || ceqb c "_"%char || (("a"%char <=? c)%char && (c <=? "z"%char)%char)) n
  end.
Definition pg_name (cols : list bytes) (n : bytes) : bytes :=
  if bmem n cols && negb (pg_plain n) then B"""" ++ replace_byte """"%char (B"""""") n ++ B"""" else n.
(** information_schema.statistics.expression has a backslash before every quote. *)
Definition mysql_name (n : bytes) : bytes :=
  if has_prefix n (B"(") then replace_byte squote (B"\'") n else n.
(** [cols] are the columns of the table. *)
Definition index_read (d : dialect) (cols : list bytes) (x : index) : result index :=
  let with_cols cols inc desc :=
    Ok (Index (ix_schema x) (ix_table x) (ix_name x) (ix_type x) (ix_unique x) cols inc desc
          (ix_opclasses x) (ix_predicate x) (ix_sql x) (ix_ignore x)) in
  match d with
  (* database_introspector.go:1013-1015 *)
  | SQLite => with_cols (split_some (join (B",") (ix_columns x))) (ix_include x) (ix_descending x)
  (* database_introspector.go:1058-1065 *)
  | MySQL =>
      with_cols (split_args (trim_space (replace2 "\"%char squote (B"'") (join (B",") (map mysql_name (ix_columns x)))))) (ix_include x)
        (map parse_bool (split_some (join (B",") (map bool_text (ix_descending x)))))
  | SQLServer => sqlserver_index x
  (* database_introspector.go:1034-1042, JSON *)
  | _ => with_cols (map (pg_name cols) (ix_columns x)) (map (pg_name cols) (ix_include x)) (ix_descending x)
  end.

(** ** WriteCatalog *)
Fixpoint each_row {A S} (f : S -> A -> result S) (s : S) (l : list A) : result S :=
  match l with [] => Ok s | a :: l' => bindr (f s a) (fun s => each_row f s l') end.
(** database_introspector.go:147-154. *)
Definition blank_table (t : table) : table := Table (tb_schema t) (tb_name t) (tb_sql t) (tb_virtual t) [] [] [] false.
Definition add_table (st : state) (t : table) : result state := step st (tb_schema t) (CSetTable t).
(** A row whose schema or table is not there is skipped, database_introspector.go:160-171, 195-212. *)
Definition if_table (st : state) (s t : bytes) (o : call) : result state :=
  bindr (get_schema st s) (fun i =>
    match i with
    | None => Ok st
    | Some i =>
        match nth_error (st_schemas st) i with
        | None => Panic
        | Some sc => bindr (get_table (st_cache st) sc t) (fun j => match j with None => Ok st | Some _ => step st s o end)
        end
    end).
Definition add_column (st : state) (x : column) : result state :=
  if_table st (col_schema x) (col_table x) (CSetColumn (col_table x) x).
(** database_introspector.go:177-187: here the table is created. *)
Definition add_constraint (st : state) (x : constraint) : result state :=
  bindr (get_schema st (con_schema x)) (fun i =>
    match i with None => Ok st | Some _ => step st (con_schema x) (CSetConstraint (con_table x) x) end).
Definition add_index (st : state) (x : index) : result state :=
  if_table st (ix_schema x) (ix_table x) (CSetIndex (ix_table x) x).
(** database_introspector.go:240-265. *)
Definition flag_column (ty : bytes) (x : column) : column :=
  Column (col_schema x) (col_table x) (col_name x) (col_type x) (col_length x) (col_precision x) (col_scale x)
    (col_domain x) (col_enum x) (col_notnull x) (beqb ty PRIMARY_KEY || col_pkey x) (beqb ty UNIQUE || col_unique x)
    (col_autoincrement x) (col_identity x) (col_default x) (col_onupdate x) (col_generated x) (col_expr x) (col_stored x)
    (col_collation x) (col_ignore x).
Definition flag (c : cache) (t : table) (x : constraint) : result table :=
  match con_columns x with
  | [n] =>
      if beqb (con_type x) PRIMARY_KEY || beqb (con_type x) UNIQUE || beqb (con_type x) FOREIGN_KEY then
        bindr (get_column c t n) (fun r =>
          match r with
          | None => Panic
          | Some i =>
              if beqb (con_type x) FOREIGN_KEY then match con_refcolumns x with [] => Panic | _ => Ok t end
              else match nth_error (tb_columns t) i with
                   | None => Panic
                   | Some col => Ok (with_columns t (set_nth i (flag_column (con_type x) col) (tb_columns t)))
                   end
          end)
      else Ok t
  | _ => Ok t
  end.
Definition flag_table (c : cache) (t : table) : result table := each_row (flag c) t (tb_constraints t).
Fixpoint map_result {A B} (f : A -> result B) (l : list A) : result (list B) :=
  match l with [] => Ok [] | a :: l' => bindr (f a) (fun b => bindr (map_result f l') (fun bs => Ok (b :: bs))) end.
Definition flag_schema (c : cache) (sc : schema) : result schema :=
  bindr (map_result (flag_table c) (sc_tables sc)) (fun l => Ok (with_tables sc l)).

(** The rows of a query. *)
Definition rows_of {A} (db : database) (sel : bytes -> live_table -> bool) (rows : live_schema -> table -> list A) : list A :=
  flat_map (fun s : live_schema => flat_map (fun x => if sel (fst s) x then rows s (lv_table x) else []) (snd s)) db.
Definition table_rows (s : live_schema) (t : table) : list table := [blank_table t].
Definition column_rows (s : live_schema) (t : table) : list column := tb_columns t.
Definition key_rows (d : dialect) (s : live_schema) (t : table) : list constraint :=
  flat_map (constraint_rows d (schema_constraints s) (tb_constraints t)) (tb_constraints t).
Definition index_rows (d : dialect) (db : database) (s : live_schema) (t : table) : list (result index) :=
  map (index_read d (map col_name (tb_columns t))) (filter (index_listed d db) (tb_indexes t)).
(** WriteCatalog for an empty catalog. *)
Definition read_database (d : dialect) (f : choice) (db : database) : result (list schema) :=
  if match d with Other => true | _ => bad_filter d f end then Err
  else
    bindr (each_row add_table (new_state []) (rows_of db (table_listed d f) table_rows)) (fun st =>
    bindr (each_row add_column st (rows_of db (columns_listed d f) column_rows)) (fun st =>
    bindr (each_row add_constraint st (rows_of db (keys_listed d f) (key_rows d))) (fun st =>
    bindr (map_result (fun r => r) (rows_of db (keys_listed d f) (index_rows d db))) (fun ixs =>
    bindr (each_row add_index st ixs) (fun st =>
    map_result (flag_schema (st_cache st)) (st_schemas st)))))).
