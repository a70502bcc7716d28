(** What reading a live database should give. *)
From Verif Require Import GoStr ModelCatalog ModelIntrospect SpecArgs.

(** ** Databases *)
(** What the databases guarantee.  Columns are as the queries give them, before the flags for primary
    and unique keys are set. *)
Definition named (n : bytes) : Prop := n <> [].
Definition column_ok (t : table) (x : column) : Prop :=
  col_schema x = tb_schema t /\ col_table x = tb_name t /\ named (col_name x)
  /\ col_pkey x = false /\ col_unique x = false /\ col_ignore x = false.
Definition rules : list bytes := [[]; B"NO ACTION"; B"RESTRICT"; B"CASCADE"; B"SET NULL"; B"SET DEFAULT"].
(** A foreign key of SQLite need not say which columns it refers to. *)
Definition constraint_ok (d : dialect) (t : table) (x : constraint) : Prop :=
  con_schema x = tb_schema t /\ con_table x = tb_name t /\ con_ignore x = false
  /\ (con_name x = [] <-> d = SQLite)
  /\ (con_type x = CHECK -> con_columns x = [] /\ con_check x <> [] /\ d <> SQLite)
  /\ (con_type x <> CHECK -> con_columns x <> [] /\ con_check x = [])
  /\ (con_type x = PRIMARY_KEY \/ con_type x = UNIQUE \/ con_type x = FOREIGN_KEY -> incl (con_columns x) (map col_name (tb_columns t)))
  /\ (con_type x = FOREIGN_KEY -> List.length (con_refcolumns x) = List.length (con_columns x) \/ (d = SQLite /\ con_refcolumns x = []))
  /\ (con_type x <> FOREIGN_KEY -> con_refcolumns x = [])
  /\ (Forall named (con_columns x) /\ Forall named (con_refcolumns x))
  /\ (In (con_update x) rules /\ In (con_delete x) rules)
  /\ match d with
     | MySQL => con_operators x = [] /\ con_indextype x = [] /\ con_predicate x = [] /\ con_deferrable x = false
                /\ con_deferred x = false /\ con_clustered x = false /\ con_notvalid x = false
                /\ (con_type x = CHECK -> con_refschema x = [] /\ con_reftable x = [] /\ con_match x = [] /\ con_update x = [] /\ con_delete x = [])
     | _ => True
     end.
Definition index_ok (d : dialect) (t : table) (x : index) : Prop :=
  ix_schema x = tb_schema t /\ ix_table x = tb_name t /\ ix_ignore x = false
  /\ ix_columns x <> [] /\ Forall named (ix_columns x) /\ Forall named (ix_include x)
  /\ match d with MySQL | SQLServer => List.length (ix_descending x) = List.length (ix_columns x) | _ => True end.
Definition table_ok (d : dialect) (s : bytes) (t : table) : Prop :=
  tb_schema t = s /\ tb_ignore t = false
  /\ NoDup (map col_name (tb_columns t)) /\ NoDup (map ix_name (tb_indexes t))
  /\ match d with
     | SQLite => True
     | MySQL => NoDup (map (fun x => (con_name x, con_type x)) (tb_constraints t))
     | _ => NoDup (map con_name (tb_constraints t))
     end
  /\ Forall (column_ok t) (tb_columns t) /\ Forall (constraint_ok d t) (tb_constraints t) /\ Forall (index_ok d t) (tb_indexes t).
Definition schema_ok (d : dialect) (s : live_schema) : Prop :=
  (d = SQLite -> fst s = [])
  /\ NoDup (map (fun x => tb_name (lv_table x)) (snd s)) /\ Forall (fun x => table_ok d (fst s) (lv_table x)) (snd s)
  /\ match d with
     | MySQL => NoDup (map con_name (filter (fun c => beqb (con_type c) CHECK) (schema_constraints s)))
     | _ => True
     end.
Definition database_ok (d : dialect) (db : database) : Prop :=
  d <> Other /\ NoDup (map fst db) /\ Forall (schema_ok d) db.

(** ** The catalog *)
(** The tables of the database itself. *)
Definition system (d : dialect) (s t : bytes) : bool :=
  match d with
  | Postgres => beqb s (B"information_schema") || has_prefix s (B"pg_")
  | MySQL => bmem s [B"mysql"; B"information_schema"; B"performance_schema"; B"sys"]
  | SQLite => has_prefix (to_lower t) (B"sqlite_")
  | SQLServer => has_prefix (to_lower t) (B"spt_") || has_prefix (to_lower t) (B"msreplication_")
  | Other => false
  end.
(** Names that are included (all, if none is given) and not excluded. *)
Definition chosen (l ex : list bytes) (n : bytes) : bool :=
  match l with [] => true | _ => bmem n l end && negb (bmem n ex).
Definition wanted (d : dialect) (f : choice) (s t : bytes) : bool :=
  (f_system f || negb (system d s t))
  && match d with SQLite => true | _ => chosen (f_schemas f) (f_exschemas f) s end
  && chosen (f_tables f) (f_extables f) t.

(** A column that is a key on its own. *)
Definition sole (ty : bytes) (t : table) (n : bytes) : bool :=
  existsb (fun c => beqb (con_type c) ty && match con_columns c with [m] => beqb m n | _ => false end) (tb_constraints t).
Definition want_column (t : table) (x : column) : column :=
  Column (col_schema x) (col_table x) (col_name x) (col_type x) (col_length x) (col_precision x) (col_scale x)
    (col_domain x) (col_enum x) (col_notnull x) (sole PRIMARY_KEY t (col_name x)) (sole UNIQUE t (col_name x))
    (col_autoincrement x) (col_identity x) (col_default x) (col_onupdate x) (col_generated x) (col_expr x) (col_stored x)
    (col_collation x) (col_ignore x).
(** A foreign key that does not name columns refers to the primary key. *)
Definition key_of (db : database) (t : bytes) : list bytes :=
  flat_map (fun s : live_schema => flat_map (fun x =>
    if beqb (tb_name (lv_table x)) t
    then flat_map (fun c => if beqb (con_type c) PRIMARY_KEY then con_columns c else []) (tb_constraints (lv_table x))
    else []) (snd s)) db.
(** NO ACTION is what happens without a rule. *)
Definition want_rule (r : bytes) : bytes := if beqb r (B"NO ACTION") then [] else r.
Definition want_constraint (db : database) (c : constraint) : constraint :=
  Constraint (con_schema c) (con_table c) (con_name c) (con_type c) (con_columns c) (con_refschema c)
    (con_reftable c)
    (if beqb (con_type c) FOREIGN_KEY then match con_refcolumns c with [] => key_of db (con_reftable c) | l => l end
     else con_refcolumns c)
    (want_rule (con_update c)) (want_rule (con_delete c))
    (con_match c) (con_check c) (con_operators c) (con_indextype c) (con_predicate c)
    (con_deferrable c) (con_deferred c) (con_clustered c) (con_notvalid c) (con_ignore c).
Definition want_table (db : database) (t : table) : table :=
  Table (tb_schema t) (tb_name t) (tb_sql t) (tb_virtual t) (map (want_column t) (tb_columns t))
    (map (want_constraint db) (tb_constraints t)) (tb_indexes t) false.
(** The schemas that have wanted tables, with these. *)
Definition is_wanted (d : dialect) (f : choice) (s : bytes) (x : live_table) : bool :=
  wanted d f s (tb_name (lv_table x)) && (lv_ordinary x || match d with SQLite => f_system f | _ => false end).
Definition want_schema (d : dialect) (f : choice) (db : database) (s : live_schema) : list schema :=
  match filter (is_wanted d f (fst s)) (snd s) with
  | [] => []
  | l => [Schema (fst s) (map (fun x => want_table db (lv_table x)) l) false]
  end.
Definition want (d : dialect) (f : choice) (db : database) : list schema := flat_map (want_schema d f db) db.

(** ** Databases that are read as they are *)
(** No name is taken for one of the database because of the underscore in LIKE. *)
Definition no_wildcard (p n : bytes) : Prop := has_prefix n p = true -> n = p \/ has_prefix n (p ++ B"_") = true.
Definition clear_names (d : dialect) (s t : bytes) : Prop :=
  match d with
  | Postgres => no_wildcard (B"pg") s
  | SQLite => no_wildcard (B"sqlite") (to_lower t)
  | SQLServer => no_wildcard (B"spt") (to_lower t) /\ no_wildcard (B"msreplication") (to_lower t)
  | _ => True
  end.
(** Not both included and excluded names, and no empty ones. *)
Definition clear_list (l ex : list bytes) : Prop := (l = [] \/ ex = []) /\ ~ In [] l /\ ~ In [] ex.
(** In SQLite empty names do no harm if no table has one, and schemas are not looked at. *)
Definition clear_choice (d : dialect) (f : choice) (db : database) : Prop :=
  match d with
  | SQLite =>
      (f_tables f = [] \/ f_extables f = [])
      /\ (In [] (f_tables f ++ f_extables f) -> forall s x, In s db -> In x (snd s) -> named (tb_name (lv_table x)))
  | _ => clear_list (f_schemas f) (f_exschemas f) /\ clear_list (f_tables f) (f_extables f)
  end.
Definition no_comma (n : bytes) : Prop := ~ In ","%char n.
Definition clear_constraint (d : dialect) (c : constraint) : Prop :=
  (d <> Postgres -> Forall no_comma (con_columns c) /\ Forall no_comma (con_refcolumns c))
  /\ (con_type c = FOREIGN_KEY -> con_refcolumns c <> [])
  /\ (d = Postgres -> con_type c = CHECK -> con_notvalid c = false).
(** Columns of MySQL indexes: no commas outside of brackets and strings, no backslashes, no white space at
    the ends. *)
Definition needs_no_quotes (n : bytes) : bool :=
  match n with
  | [] => false
  | c :: n' => (is_lower c || ceqb c underscore) && forallb (fun c => is_lower c || is_digit c || ceqb c underscore) n'
  end.
Definition clear_index (d : dialect) (db : database) (t : table) (x : index) : Prop :=
  match d with
  | Postgres =>
      Forall (fun n => In n (map col_name (tb_columns t)) -> needs_no_quotes n = true) (ix_columns x ++ ix_include x)
  | MySQL =>
      Forall (fun n => argument n /\ ~ In "\"%char n /\ trim_space n = n) (ix_columns x)
  | _ => Forall no_comma (ix_columns x) /\ Forall no_comma (ix_include x)
  end
  /\ (d = Postgres \/ d = MySQL -> forall s c, In s db -> In c (schema_constraints s) -> con_name c <> ix_name x).
Definition clear_table (d : dialect) (db : database) (s : bytes) (x : live_table) : Prop :=
  clear_names d s (tb_name (lv_table x))
  /\ (lv_ordinary x = true \/ tb_constraints (lv_table x) = []) /\ lv_quoted x = false
  /\ Forall (clear_constraint d) (tb_constraints (lv_table x))
  /\ Forall (clear_index d db (lv_table x)) (tb_indexes (lv_table x)).
Definition clear_schema (d : dialect) (db : database) (s : live_schema) : Prop :=
  Forall (clear_table d db (fst s)) (snd s)
  /\ (d = MySQL -> forall a b, In a (schema_constraints s) -> In b (schema_constraints s) -> con_name a = con_name b -> con_type a = con_type b).
Definition clear (d : dialect) (f : choice) (db : database) : Prop := clear_choice d f db /\ Forall (clear_schema d db) db.
