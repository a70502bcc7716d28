(** Model of the catalog cache, ddl/catalog_cache.go, for schemas, tables, columns,
    constraints and indexes.  A pointer to an object is its position in the list that holds
    it: the pointers of the code are only used until the next object is added to the list. *)
From Verif Require Import GoStr ModelCatalog.

(** Go maps from arrays of strings. *)
Definition key := list bytes.
Fixpoint keqb (a b : key) : bool :=
  match a, b with
  | [], [] => true
  | x :: a', y :: b' => beqb x y && keqb a' b'
  | _, _ => false
  end.
Definition kmap := key -> option nat.
Definition upd {V} (m : key -> V) (k : key) (v : V) : key -> V := fun k' => if keqb k k' then v else m k'.

(** CatalogCache, catalog_cache.go:9-24. *)
Record cache := Cache {
  ca_schemas : kmap; ca_tables : kmap; ca_columns : kmap; ca_constraints : kmap; ca_indexes : kmap;
  ca_pkeys : kmap; ca_fkeys : key -> list nat
}.

Definition indexed {A} (l : list A) : list (nat * A) := combine (seq 0 (List.length l)) l.

(** NewCatalogCache, catalog_cache.go:27-111.  The loops fill the maps independently of
    each other, so that each map is given on its own. *)
Definition all_tables (schemas : list schema) : list (schema * (nat * table)) :=
  flat_map (fun s => map (fun p => (s, p)) (indexed (sc_tables s))) schemas.
Definition new_cache (schemas : list schema) : cache :=
  let tables := all_tables schemas in
  {| ca_schemas := fold_left (fun m '(i, s) => upd m [sc_name s] (Some i)) (indexed schemas) (fun _ => None);
     ca_tables := fold_left (fun m '(s, (j, t)) => upd m [sc_name s; tb_name t] (Some j)) tables (fun _ => None);
     ca_columns :=
       fold_left (fun m '(s, (_, t)) =>
         fold_left (fun m '(k, c) => upd m [sc_name s; tb_name t; col_name c] (Some k)) (indexed (tb_columns t)) m)
         tables (fun _ => None);
     ca_constraints :=
       fold_left (fun m '(s, (_, t)) =>
         fold_left (fun m '(k, c) =>
           match con_name c with
           | [] => m
           | _ => upd m [sc_name s; tb_name t; con_name c] (Some k)
           end) (indexed (tb_constraints t)) m)
         tables (fun _ => None);
     ca_indexes :=
       fold_left (fun m '(s, (_, t)) =>
         fold_left (fun m '(k, x) => upd m [sc_name s; tb_name t; ix_name x] (Some k)) (indexed (tb_indexes t)) m)
         tables (fun _ => None);
     ca_pkeys :=
       fold_left (fun m '(s, (_, t)) =>
         fold_left (fun m '(k, c) =>
           if beqb (con_type c) PRIMARY_KEY then upd m [sc_name s; tb_name t] (Some k) else m)
           (indexed (tb_constraints t)) m)
         tables (fun _ => None);
     ca_fkeys :=
       fold_left (fun m '(s, (_, t)) =>
         fold_left (fun m '(k, c) =>
           if beqb (con_type c) FOREIGN_KEY then upd m [sc_name s; tb_name t] (m [sc_name s; tb_name t] ++ [k]) else m)
           (indexed (tb_constraints t)) m)
         tables (fun _ => []) |}.

(** The lookup common to all Get functions, e.g. catalog_cache.go:124-128: reading a
    position outside of the list panics. *)
Definition at_pos {A} (ignored : A -> bool) (l : list A) (p : option nat) : result (option nat) :=
  match p with
  | None => Ok None
  | Some i =>
      match nth_error l i with
      | None => Panic
      | Some a => Ok (if ignored a then None else Some i)
      end
  end.

Fixpoint set_nth {A} (i : nat) (a : A) (l : list A) : list A :=
  match l, i with
  | [], _ => []
  | _ :: l', O => a :: l'
  | x :: l', S i' => x :: set_nth i' a l'
  end.

(** GetOrCreate: the list, the entry for the cache (if a new one is needed) and the position. *)
Definition get_or_create {A} (ignored : A -> bool) (new : A) (l : list A) (p : option nat)
  : result (list A * option nat * nat) :=
  bindr (at_pos ignored l p) (fun r =>
    match r with
    | Some i => Ok (l, None, i)
    | None => Ok (l ++ [new], Some (List.length l), List.length l)
    end).

(** AddOrUpdate: the list and the entry for the cache (if a new one is needed). *)
Definition add_or_update {A} (ignored : A -> bool) (a : A) (l : list A) (p : option nat)
  : result (list A * option nat) :=
  bindr (at_pos ignored l p) (fun r =>
    match r with
    | Some i => Ok (set_nth i a l, None)
    | None => Ok (l ++ [a], Some (List.length l))
    end).

Definition enter (m : kmap) (k : key) (p : option nat) : kmap :=
  match p with Some i => upd m k (Some i) | None => m end.

(** The catalog's schemas and their cache. *)
Record state := State { st_schemas : list schema; st_cache : cache }.

Definition with_columns (t : table) (l : list column) : table :=
  Table (tb_schema t) (tb_name t) (tb_sql t) (tb_virtual t) l (tb_constraints t) (tb_indexes t) (tb_ignore t).
Definition with_constraints (t : table) (l : list constraint) : table :=
  Table (tb_schema t) (tb_name t) (tb_sql t) (tb_virtual t) (tb_columns t) l (tb_indexes t) (tb_ignore t).
Definition with_indexes (t : table) (l : list index) : table :=
  Table (tb_schema t) (tb_name t) (tb_sql t) (tb_virtual t) (tb_columns t) (tb_constraints t) l (tb_ignore t).
Definition with_ignore (t : table) (b : bool) : table :=
  Table (tb_schema t) (tb_name t) (tb_sql t) (tb_virtual t) (tb_columns t) (tb_constraints t) (tb_indexes t) b.
Definition with_tables (s : schema) (l : list table) : schema := Schema (sc_name s) l (sc_ignore s).

(** Updates of the maps. *)
Definition set_schemas (c : cache) (m : kmap) : cache :=
  Cache m (ca_tables c) (ca_columns c) (ca_constraints c) (ca_indexes c) (ca_pkeys c) (ca_fkeys c).
Definition set_tables (c : cache) (m : kmap) : cache :=
  Cache (ca_schemas c) m (ca_columns c) (ca_constraints c) (ca_indexes c) (ca_pkeys c) (ca_fkeys c).
Definition set_columns (c : cache) (m : kmap) : cache :=
  Cache (ca_schemas c) (ca_tables c) m (ca_constraints c) (ca_indexes c) (ca_pkeys c) (ca_fkeys c).
Definition set_indexes (c : cache) (m : kmap) : cache :=
  Cache (ca_schemas c) (ca_tables c) (ca_columns c) (ca_constraints c) m (ca_pkeys c) (ca_fkeys c).

(** GetSchema, catalog_cache.go:120-129. *)
Definition get_schema (st : state) (s : bytes) : result (option nat) :=
  at_pos sc_ignore (st_schemas st) (ca_schemas (st_cache st) [s]).

(** GetOrCreateSchema, catalog_cache.go:137-148. *)
Definition get_or_create_schema (st : state) (s : bytes) : result (state * nat) :=
  let c := st_cache st in
  bindr (get_or_create sc_ignore (Schema s [] false) (st_schemas st) (ca_schemas c [s]))
    (fun '(l, e, i) => Ok (State l (set_schemas c (enter (ca_schemas c) [s] e)), i)).

(** GetTable, catalog_cache.go:385-394. *)
Definition get_table (c : cache) (sc : schema) (t : bytes) : result (option nat) :=
  at_pos tb_ignore (sc_tables sc) (ca_tables c [sc_name sc; t]).

(** GetOrCreateTable, catalog_cache.go:402-414. *)
Definition get_or_create_table (c : cache) (sc : schema) (t : bytes) : result (schema * cache * nat) :=
  bindr (get_or_create tb_ignore (Table (sc_name sc) t [] false [] [] [] false)
           (sc_tables sc) (ca_tables c [sc_name sc; t]))
    (fun '(l, e, j) => Ok (with_tables sc l, set_tables c (enter (ca_tables c) [sc_name sc; t] e), j)).

(** AddOrUpdateTable, catalog_cache.go:418-428. *)
Definition add_or_update_table (c : cache) (sc : schema) (t : table) : result (schema * cache) :=
  let t := Table (sc_name sc) (tb_name t) (tb_sql t) (tb_virtual t) (tb_columns t) (tb_constraints t)
             (tb_indexes t) (tb_ignore t) in
  bindr (add_or_update tb_ignore t (sc_tables sc) (ca_tables c [sc_name sc; tb_name t]))
    (fun '(l, e) => Ok (with_tables sc l, set_tables c (enter (ca_tables c) [sc_name sc; tb_name t] e))).

(** GetColumn, catalog_cache.go:436-445. *)
Definition get_column (c : cache) (t : table) (n : bytes) : result (option nat) :=
  at_pos col_ignore (tb_columns t) (ca_columns c [tb_schema t; tb_name t; n]).

(** GetOrCreateColumn, catalog_cache.go:453-467. *)
Definition new_column (t : table) (n ty : bytes) : column :=
  Column (tb_schema t) (tb_name t) n ty [] [] [] [] false false false false false [] [] false false [] false [] false.
Definition get_or_create_column (c : cache) (t : table) (n ty : bytes) : result (table * cache * nat) :=
  let k := [tb_schema t; tb_name t; n] in
  bindr (get_or_create col_ignore (new_column t n ty) (tb_columns t) (ca_columns c k))
    (fun '(l, e, i) => Ok (with_columns t l, set_columns c (enter (ca_columns c) k e), i)).

(** AddOrUpdateColumn, catalog_cache.go:471-482. *)
Definition add_or_update_column (c : cache) (t : table) (x : column) : result (table * cache) :=
  let x := Column (tb_schema t) (tb_name t) (col_name x) (col_type x) (col_length x) (col_precision x) (col_scale x)
             (col_domain x) (col_enum x) (col_notnull x) (col_pkey x) (col_unique x) (col_autoincrement x)
             (col_identity x) (col_default x) (col_onupdate x) (col_generated x) (col_expr x) (col_stored x)
             (col_collation x) (col_ignore x) in
  let k := [tb_schema t; tb_name t; col_name x] in
  bindr (add_or_update col_ignore x (tb_columns t) (ca_columns c k))
    (fun '(l, e) => Ok (with_columns t l, set_columns c (enter (ca_columns c) k e))).

(** GetConstraint, catalog_cache.go:491-500. *)
Definition get_constraint (c : cache) (t : table) (n : bytes) : result (option nat) :=
  at_pos con_ignore (tb_constraints t) (ca_constraints c [tb_schema t; tb_name t; n]).

(** The entries for primary and foreign keys, catalog_cache.go:521-527 and 544-550. *)
Definition enter_constraint (c : cache) (t : table) (ty : bytes) (constraints : kmap) (e : option nat) : cache :=
  let k := [tb_schema t; tb_name t] in
  let pkeys := match e with
               | Some i => if beqb ty PRIMARY_KEY then upd (ca_pkeys c) k (Some i) else ca_pkeys c
               | None => ca_pkeys c
               end in
  let fkeys := match e with
               | Some i => if beqb ty FOREIGN_KEY then upd (ca_fkeys c) k (ca_fkeys c k ++ [i]) else ca_fkeys c
               | None => ca_fkeys c
               end in
  Cache (ca_schemas c) (ca_tables c) (ca_columns c) constraints (ca_indexes c) pkeys fkeys.

(** GetOrCreateConstraint, catalog_cache.go:508-530. *)
Definition new_constraint (t : table) (n ty : bytes) (cols : list bytes) : constraint :=
  Constraint (tb_schema t) (tb_name t) n ty cols [] [] [] [] [] [] [] [] [] [] false false false false false.
Definition get_or_create_constraint (c : cache) (t : table) (n ty : bytes) (cols : list bytes)
  : result (table * cache * nat) :=
  let k := [tb_schema t; tb_name t; n] in
  bindr (get_or_create con_ignore (new_constraint t n ty cols) (tb_constraints t) (ca_constraints c k))
    (fun '(l, e, i) =>
       Ok (with_constraints t l, enter_constraint c t ty (enter (ca_constraints c) k e) e, i)).

(** AddOrUpdateConstraint, catalog_cache.go:534-554. *)
Definition add_or_update_constraint (c : cache) (t : table) (x : constraint) : result (table * cache) :=
  let x := Constraint (tb_schema t) (tb_name t) (con_name x) (con_type x) (con_columns x) (con_refschema x)
             (con_reftable x) (con_refcolumns x) (con_update x) (con_delete x) (con_match x) (con_check x)
             (con_operators x) (con_indextype x) (con_predicate x) (con_deferrable x) (con_deferred x)
             (con_clustered x) (con_notvalid x) (con_ignore x) in
  let k := [tb_schema t; tb_name t; con_name x] in
  bindr (add_or_update con_ignore x (tb_constraints t) (ca_constraints c k))
    (fun '(l, e) =>
       let m := match con_name x with [] => ca_constraints c | _ => enter (ca_constraints c) k e end in
       Ok (with_constraints t l, enter_constraint c t (con_type x) m e)).

(** GetIndex, catalog_cache.go:562-571. *)
Definition get_index (c : cache) (t : table) (n : bytes) : result (option nat) :=
  at_pos ix_ignore (tb_indexes t) (ca_indexes c [tb_schema t; tb_name t; n]).

(** GetOrCreateIndex, catalog_cache.go:579-593. *)
Definition get_or_create_index (c : cache) (t : table) (n : bytes) (cols : list bytes)
  : result (table * cache * nat) :=
  let k := [tb_schema t; tb_name t; n] in
  bindr (get_or_create ix_ignore (Index (tb_schema t) (tb_name t) n [] false cols [] [] [] [] [] false)
           (tb_indexes t) (ca_indexes c k))
    (fun '(l, e, i) => Ok (with_indexes t l, set_indexes c (enter (ca_indexes c) k e), i)).

(** AddOrUpdateIndex, catalog_cache.go:597-608. *)
Definition add_or_update_index (c : cache) (t : table) (x : index) : result (table * cache) :=
  let x := Index (tb_schema t) (tb_name t) (ix_name x) (ix_type x) (ix_unique x) (ix_columns x) (ix_include x)
             (ix_descending x) (ix_opclasses x) (ix_predicate x) (ix_sql x) (ix_ignore x) in
  let k := [tb_schema t; tb_name t; ix_name x] in
  bindr (add_or_update ix_ignore x (tb_indexes t) (ca_indexes c k))
    (fun '(l, e) => Ok (with_indexes t l, set_indexes c (enter (ca_indexes c) k e))).

(** GetPrimaryKey, catalog_cache.go:773-782. *)
Definition get_primary_key (c : cache) (t : table) : result (option nat) :=
  at_pos con_ignore (tb_constraints t) (ca_pkeys c [tb_schema t; tb_name t]).

(** GetForeignKeys, catalog_cache.go:785-802. *)
Fixpoint collect (l : list constraint) (ps : list nat) : result (list constraint) :=
  match ps with
  | [] => Ok []
  | i :: ps' =>
      match nth_error l i with
      | None => Panic
      | Some x => bindr (collect l ps') (fun xs => Ok (if con_ignore x then xs else x :: xs))
      end
  end.
Definition get_foreign_keys (c : cache) (t : table) : result (list constraint) :=
  collect (tb_constraints t) (ca_fkeys c [tb_schema t; tb_name t]).

(** ** Uses of the cache *)
(** A call on a table or one of its objects, which is reached as in
    struct_parser.go:170-171 and database_introspector.go:151-211.  [CSetTable]
    is AddOrUpdateTable and [CIgnoreTable] sets the flag of the table. *)
Inductive call :=
| CSchema
| CTable (t : bytes)
| CSetTable (t : table)
| CIgnoreTable (t : bytes)
| CColumn (t n ty : bytes)
| CSetColumn (t : bytes) (x : column)
| CConstraint (t n ty : bytes) (cols : list bytes)
| CSetConstraint (t : bytes) (x : constraint)
| CIndex (t n : bytes) (cols : list bytes)
| CSetIndex (t : bytes) (x : index).

Definition on_table (c : cache) (sc : schema) (t : bytes) (f : cache -> table -> result (table * cache))
  : result (schema * cache) :=
  bindr (get_or_create_table c sc t) (fun '(sc, c, j) =>
    match nth_error (sc_tables sc) j with
    | None => Panic
    | Some tb => bindr (f c tb) (fun '(tb, c) => Ok (with_tables sc (set_nth j tb (sc_tables sc)), c))
    end).

Definition first {A B} (r : result (A * B * nat)) : result (A * B) :=
  bindr r (fun '(a, b, _) => Ok (a, b)).

Definition run_call (c : cache) (sc : schema) (o : call) : result (schema * cache) :=
  match o with
  | CSchema => Ok (sc, c)
  | CTable t => first (get_or_create_table c sc t)
  | CSetTable t => add_or_update_table c sc t
  | CIgnoreTable t => on_table c sc t (fun c tb => Ok (with_ignore tb true, c))
  | CColumn t n ty => on_table c sc t (fun c tb => first (get_or_create_column c tb n ty))
  | CSetColumn t x => on_table c sc t (fun c tb => add_or_update_column c tb x)
  | CConstraint t n ty cols => on_table c sc t (fun c tb => first (get_or_create_constraint c tb n ty cols))
  | CSetConstraint t x => on_table c sc t (fun c tb => add_or_update_constraint c tb x)
  | CIndex t n cols => on_table c sc t (fun c tb => first (get_or_create_index c tb n cols))
  | CSetIndex t x => on_table c sc t (fun c tb => add_or_update_index c tb x)
  end.

Definition step (st : state) (s : bytes) (o : call) : result state :=
  bindr (get_or_create_schema st s) (fun '(st, i) =>
    match nth_error (st_schemas st) i with
    | None => Panic
    | Some sc =>
        bindr (run_call (st_cache st) sc o) (fun '(sc, c) => Ok (State (set_nth i sc (st_schemas st)) c))
    end).

Fixpoint steps (st : state) (l : list (bytes * call)) : result state :=
  match l with
  | [] => Ok st
  | (s, o) :: l' => bindr (step st s o) (fun st => steps st l')
  end.

Definition new_state (schemas : list schema) : state := State schemas (new_cache schemas).

(** ** Catalog.WriteCatalog *)
(** One column, catalog_cache.go:893-896. *)
Definition copy_column (c : cache) (t : table) (x : column) : result (table * cache) :=
  bindr (get_or_create_column c t (col_name x) (col_type x)) (fun '(t, c, i) =>
    Ok (with_columns t (set_nth i x (tb_columns t)), c)).
(** One constraint, catalog_cache.go:897-903. *)
Definition copy_constraint (c : cache) (t : table) (x : constraint) : result (table * cache) :=
  bindr (get_or_create_constraint c t (con_name x) (con_type x) (con_columns x)) (fun '(t, c, i) =>
    Ok (with_constraints t (set_nth i x (tb_constraints t)), c)).
(** One index, catalog_cache.go:904-911. *)
Definition copy_index (c : cache) (t : table) (x : index) : result (table * cache) :=
  bindr (get_or_create_index c t (ix_name x) (ix_columns x)) (fun '(t, c, i) =>
    Ok (with_indexes t (set_nth i x (tb_indexes t)), c)).
Fixpoint copy_all {A} (f : cache -> table -> A -> result (table * cache)) (c : cache) (t : table) (l : list A)
  : result (table * cache) :=
  match l with
  | [] => Ok (t, c)
  | x :: l' => bindr (f c t x) (fun '(t, c) => copy_all f c t l')
  end.
(** One table, catalog_cache.go:886-917, without comments and triggers. *)
Definition copy_table (c : cache) (sc : schema) (src : table) : result (schema * cache) :=
  bindr (get_or_create_table c sc (tb_name src)) (fun '(sc, c, j) =>
    match nth_error (sc_tables sc) j with
    | None => Panic
    | Some t =>
        let t := Table (tb_schema src) (tb_name src) (tb_sql src) (tb_virtual t) (tb_columns t) (tb_constraints t)
                   (tb_indexes t) (tb_ignore src) in
        bindr (copy_all copy_column c t (tb_columns src)) (fun '(t, c) =>
        bindr (copy_all copy_constraint c t (tb_constraints src)) (fun '(t, c) =>
        bindr (copy_all copy_index c t (tb_indexes src)) (fun '(t, c) =>
        Ok (with_tables sc (set_nth j t (sc_tables sc)), c))))
    end).
Fixpoint copy_tables (c : cache) (sc : schema) (l : list table) : result (schema * cache) :=
  match l with
  | [] => Ok (sc, c)
  | t :: l' => bindr (copy_table c sc t) (fun '(sc, c) => copy_tables c sc l')
  end.
(** One schema, catalog_cache.go:817-918, without comments, enums, domains, routines and views. *)
Definition copy_schema (st : state) (src : schema) : result state :=
  bindr (get_or_create_schema st (sc_name src)) (fun '(st, i) =>
    match nth_error (st_schemas st) i with
    | None => Panic
    | Some sc =>
        bindr (copy_tables (st_cache st) (Schema (sc_name src) (sc_tables sc) (sc_ignore src)) (sc_tables src))
          (fun '(sc, c) => Ok (State (set_nth i sc (st_schemas st)) c))
    end).
Fixpoint copy_schemas (st : state) (l : list schema) : result state :=
  match l with
  | [] => Ok st
  | s :: l' => bindr (copy_schema st s) (fun st => copy_schemas st l')
  end.
(** Catalog.WriteCatalog, catalog_cache.go:804-920: the schemas of [dest] afterwards. *)
Definition write_catalog (dest src : list schema) : result (list schema) :=
  bindr (copy_schemas (new_state dest) src) (fun st => Ok (st_schemas st)).
