(** What a generated migration has to do. *)
From Verif Require Import GoStr ModelCatalog ModelDdl ModelDiffSql.

(** ** Catalogs *)
(** Schemas and tables have different names; tables carry the name of their schema. *)
Definition unique_tables (l : list schema) : Prop :=
  NoDup (map sc_name l)
  /\ forall s, In s l -> NoDup (map tb_name (sc_tables s)) /\ forall t, In t (sc_tables s) -> tb_schema t = sc_name s.
(** The columns, constraints and indexes of a table have different names, too. *)
Definition unique_names (l : list schema) : Prop :=
  unique_tables l
  /\ forall s t, In s l -> In t (sc_tables s) ->
     NoDup (map col_name (tb_columns t)) /\ NoDup (map con_name (tb_constraints t)) /\ NoDup (map ix_name (tb_indexes t)).
(** The types of the columns can be read, see C10. *)
Definition readable_types (d : dialect) (l : list schema) : Prop :=
  forall s t c, In s l -> In t (sc_tables s) -> In c (tb_columns t) -> exists x, normalize_column_type d (col_type c) = Ok x.
(** Primary keys, unique constraints and foreign keys have a name. *)
Definition named_keys (l : list schema) : Prop :=
  forall s t c, In s l -> In t (sc_tables s) -> In c (tb_constraints t) ->
    con_type c = PRIMARY_KEY \/ con_type c = UNIQUE \/ con_type c = FOREIGN_KEY -> con_name c <> [].

(** The object with the name; ignored objects do not count. *)
Definition the {A} (name : A -> bytes) (ign : A -> bool) (l : list A) (n : bytes) : option A :=
  find (fun a => beqb (name a) n && negb (ign a)) l.

(** ** Statements *)
(** The statements that are run; undo files are only run after an error. *)
Definition forward (files : list file) : list stmt :=
  flat_map fl_stmts (filter (fun f => negb (fl_undo f)) files).

(** SQLite: the name under which a constraint is compared. *)
Definition compared_name (c : constraint) : bytes :=
  if beqb (con_type c) PRIMARY_KEY then generate_name PKey (con_table c) (con_columns c)
  else if beqb (con_type c) UNIQUE then generate_name UniqueKey (con_table c) (con_columns c)
  else if beqb (con_type c) FOREIGN_KEY then generate_name FKey (con_table c) (con_columns c)
  else con_name c.
Definition is_virtual_table (t : table) : Prop :=
  tb_virtual t = true \/ exists r, tb_sql t = B"CREATE VIRTUAL TABLE" ++ r.
(** Constraints that are not keys have names, and of constraints with the same name all or
    none are ignored. *)
Definition sqlite_constraints (l : list schema) : Prop :=
  forall s t a b, In s l -> In t (sc_tables s) -> ~ is_virtual_table t -> In a (tb_constraints t) -> In b (tb_constraints t) ->
    (con_type a = PRIMARY_KEY \/ con_type a = UNIQUE \/ con_type a = FOREIGN_KEY \/ con_name a <> [])
    /\ (compared_name a = compared_name b -> con_ignore a = con_ignore b).
Definition sqlite_names (l : list schema) : Prop :=
  unique_tables l
  /\ forall s t, In s l -> In t (sc_tables s) -> NoDup (map col_name (tb_columns t)) /\ NoDup (map ix_name (tb_indexes t)).

(** ** What is dropped *)
(** Statements that destroy data. *)
Definition destroys (s : stmt) : bool :=
  match s with QDropSchema _ | QDropTable _ | QDropColumn _ _ => true | _ => false end.
(** The index is created again later. *)
Definition index_comes_back (t : qname) (n : bytes) (later : list stmt) : Prop :=
  exists x b, In (QCreateIndex t x b) later /\ ix_name x = n.
(** The constraint is added again later, or one of the same kind on the same table if it is
    not a foreign key. *)
Definition constraint_comes_back (t : qname) (c : constraint) (later : list stmt) : Prop :=
  exists c', con_type c' = con_type c /\ (con_type c = FOREIGN_KEY -> c' = c)
    /\ (In (QAddConstraint t c' false) later \/ In (QAddUsingIndex t c') later).

(** Tables of the same name in both catalogs. *)
Definition counterparts (src dest : list schema) (s d : table) : Prop :=
  exists ss ds, In ss src /\ In ds dest /\ sc_name ss = sc_name ds /\ In s (sc_tables ss) /\ In d (sc_tables ds)
    /\ tb_name s = tb_name d.
(** Constraints of the same name are of the same kind. *)
Definition same_kinds (src dest : list schema) : Prop :=
  forall s d a b, counterparts src dest s d -> In a (tb_constraints s) -> In b (tb_constraints d) ->
    con_name a = con_name b -> con_type a = con_type b.
Definition single_primary_keys (l : list schema) : Prop :=
  forall s t a b, In s l -> In t (sc_tables s) -> In a (tb_constraints t) -> In b (tb_constraints t) ->
    con_type a = PRIMARY_KEY -> con_type b = PRIMARY_KEY -> con_name a = con_name b.
(** Two foreign keys join the same tables. *)
Definition same_pair (a b : constraint) : Prop :=
  (con_schema a = con_schema b /\ con_table a = con_table b /\ con_refschema a = con_refschema b /\ con_reftable a = con_reftable b)
  \/ (con_schema a = con_refschema b /\ con_table a = con_reftable b /\ con_refschema a = con_schema b /\ con_reftable a = con_table b).
(** A foreign key that has to be added to a table of the source. *)
Definition new_key (src dest : list schema) (c : constraint) : Prop :=
  exists s d, counterparts src dest s d /\ In c (tb_constraints d) /\ con_type c = FOREIGN_KEY /\ con_ignore c = false
    /\ forall a, In a (tb_constraints s) -> con_name a = con_name c -> con_ignore a = true.
(** No new foreign key joins two tables that are already joined. *)
Definition new_pairs (src dest : list schema) : Prop :=
  forall c s t k, new_key src dest c -> In s src -> In t (sc_tables s) -> In k (tb_constraints t) -> con_type k = FOREIGN_KEY ->
    ~ same_pair c k.

(** ** What is created *)
Definition lacks {A} (name : A -> bytes) (ign : A -> bool) (l : list A) (n : bytes) : bool :=
  match the name ign l n with Some _ => false | None => true end.
(** The schemas, tables and columns of [dest] that are not in [src].  Objects that are ignored
    or belong to an ignored table or schema do not count; a schema without a name is not
    created. *)
Definition new_schemas (src dest : list schema) : list bytes :=
  map sc_name (filter (fun s => negb (sc_ignore s) && negb (beqb (sc_name s) []) && lacks sc_name sc_ignore src (sc_name s)) dest).
Definition new_tables (src dest : list schema) : list table :=
  flat_map (fun ds =>
    if sc_ignore ds then [] else
    filter (fun t => negb (tb_ignore t) &&
              match the sc_name sc_ignore src (sc_name ds) with
              | None => true
              | Some ss => lacks tb_name tb_ignore (sc_tables ss) (tb_name t)
              end) (sc_tables ds)) dest.
(** The tables of [dest] that are in [src], each after its counterpart. *)
Definition old_tables (src dest : list schema) : list (table * table) :=
  flat_map (fun ds =>
    if sc_ignore ds then [] else
    match the sc_name sc_ignore src (sc_name ds) with
    | None => []
    | Some ss =>
        flat_map (fun t => if tb_ignore t then [] else
          match the tb_name tb_ignore (sc_tables ss) (tb_name t) with
          | None => []
          | Some s => [(s, t)]
          end) (sc_tables ds)
    end) dest.
(** The columns of [a] that [b] does not have. *)
Definition extra_columns (a b : table) : list column :=
  filter (fun c => negb (col_ignore c) && lacks col_name col_ignore (tb_columns b) (col_name c)) (tb_columns a).
(** How an existing table is named.  A table without a schema is in the schema dbo on SQL Server. *)
Definition home (d : dialect) (cur : bytes) (t : table) : qname :=
  match d, cur, tb_schema t with
  | SQLServer, [], [] => (B"dbo", tb_name t)
  | _, _, _ => qualify cur (tb_schema t) (tb_name t)
  end.

Definition schemas_created (l : list stmt) : list bytes :=
  flat_map (fun s => match s with QCreateSchema n => [n] | _ => [] end) l.
Definition tables_created (l : list stmt) : list (qname * table) :=
  flat_map (fun s => match s with QCreateTable q t => [(q, t)] | _ => [] end) l.
Definition columns_added (l : list stmt) : list (qname * column) :=
  flat_map (fun s => match s with QAddColumn q c => [(q, c)] | _ => [] end) l.
Definition columns_dropped (l : list stmt) : list (qname * bytes) :=
  flat_map (fun s => match s with QDropColumn q n => [(q, n)] | _ => [] end) l.
Definition tables_renamed (l : list stmt) : list (qname * bytes) :=
  flat_map (fun s => match s with QRename q n => [(q, n)] | _ => [] end) l.
(** SQLite has one schema; virtual tables are left alone. *)
Definition is_virtualb (t : table) : bool :=
  tb_virtual t || beqb (firstn 20 (tb_sql t)) (B"CREATE VIRTUAL TABLE").
Definition new_tables_sqlite (s d : schema) : list table :=
  filter (fun t => negb (tb_ignore t) && negb (is_virtualb t) && lacks tb_name tb_ignore (sc_tables s) (tb_name t)) (sc_tables d).
Definition old_tables_sqlite (s d : schema) : list (table * table) :=
  flat_map (fun t => if tb_ignore t || is_virtualb t then [] else
    match the tb_name tb_ignore (sc_tables s) (tb_name t) with
    | None => []
    | Some u => [(u, t)]
    end) (sc_tables d).
(** The table that replaces [t] while it is altered. *)
Definition interim (t : table) : bytes := tb_name t ++ B"_new".

(** The indexes of [a] that [b] does not have. *)
Definition extra_indexes (a b : table) : list index :=
  filter (fun x => negb (ix_ignore x) && lacks ix_name ix_ignore (tb_indexes b) (ix_name x)) (tb_indexes a).
(** Differences that make the migration alter the table [s]. *)
Definition altered_table (s t : table) : Prop :=
  extra_columns t s <> [] \/ extra_indexes s t <> [] \/ extra_indexes t s <> []
  \/ exists a b, In a (tb_columns s) /\ In b (tb_columns t) /\ col_name a = col_name b /\ col_ignore a = false /\ col_ignore b = false
       /\ col_notnull a <> col_notnull b /\ col_pkey b = false.

(** ** Foreign keys *)
(** Every statement [P] comes before every statement [Q]. *)
Definition precedes (P Q : stmt -> bool) (l : list stmt) : Prop :=
  forall pre x post y, l = pre ++ x :: post -> P x = true -> In y pre -> Q y = false.
Definition drops_key (s : stmt) : bool :=
  match s with QDropConstraint _ c => beqb (con_type c) FOREIGN_KEY | _ => false end.
Definition adds_key (s : stmt) : bool :=
  match s with QAddConstraint _ c _ | QAddUsingIndex _ c => beqb (con_type c) FOREIGN_KEY | _ => false end.
Definition drops_table (s : stmt) : bool := match s with QDropTable _ | QDropSchema _ => true | _ => false end.
Definition creates_table (s : stmt) : bool := match s with QCreateTable _ _ | QCreateSchema _ => true | _ => false end.
(** A foreign key is added to and dropped from the table it belongs to. *)
Definition at_own_table (cur : bytes) (s : stmt) : Prop :=
  match s with
  | QDropConstraint q c | QAddConstraint q c _ => con_type c = FOREIGN_KEY -> q = qualify cur (con_schema c) (con_table c)
  | _ => True
  end.
(** Foreign keys that join the same two tables belong to the same one of them. *)
Definition one_owner (l : list schema) : Prop :=
  forall s t a s' t' b, In s l -> In t (sc_tables s) -> In a (tb_constraints t) -> In s' l -> In t' (sc_tables s') -> In b (tb_constraints t') ->
    con_type a = FOREIGN_KEY -> con_type b = FOREIGN_KEY -> same_pair a b -> con_schema a = con_schema b /\ con_table a = con_table b.

Definition keys_added (l : list stmt) : list constraint :=
  flat_map (fun s => match s with QAddConstraint _ c _ => if beqb (con_type c) FOREIGN_KEY then [c] else [] | _ => [] end) l.
Definition keys_dropped (l : list stmt) : list constraint :=
  flat_map (fun s => match s with QDropConstraint _ c => if beqb (con_type c) FOREIGN_KEY then [c] else [] | _ => [] end) l.
Definition foreign_keys (t : table) : list constraint :=
  filter (fun c => negb (con_ignore c) && beqb (con_type c) FOREIGN_KEY) (tb_constraints t).
(** The foreign keys of [a] that [b] does not have. *)
Definition extra_keys (a b : table) : list constraint :=
  filter (fun c => lacks con_name con_ignore (tb_constraints b) (con_name c)) (foreign_keys a).
(** The foreign keys of [dest] that are missing from [src]. *)
Definition new_keys (src dest : list schema) : list constraint :=
  flat_map foreign_keys (new_tables src dest) ++ flat_map (fun '(s, t) => extra_keys t s) (old_tables src dest).
(** The foreign keys of [src] that are not in [dest]. *)
Definition old_keys (src dest : list schema) : list constraint :=
  flat_map foreign_keys (new_tables dest src) ++ flat_map (fun '(s, t) => extra_keys s t) (old_tables src dest).

(** ** File names *)
(** The names are in alphabetical order, and no name occurs twice. *)
Definition alphabetical (l : list bytes) : Prop := ForallOrdPairs (fun a b => bltb a b = true) l.

(** ** Warnings *)
(** Changes of a type, given by its name and its arguments, that can fail or lose data or
    that are not known to be safe. *)
Definition fits (n : nat) : Prop := (Z.of_nat n < 2 ^ 63)%Z.
Definition harmful (x y : bytes * bytes * bytes) : Prop :=
  let '(t1, a1, b1) := x in
  let '(t2, a2, b2) := y in
  let from_to a b := t1 = B a /\ t2 = B b in
  (from_to "VARCHAR"%string "VARCHAR"%string /\ exists m n, a1 = nat_dec m /\ a2 = nat_dec n /\ 0 < n < m /\ fits m)
  \/ (from_to "NUMERIC"%string "NUMERIC"%string
      /\ ((exists m n, a1 = nat_dec m /\ a2 = nat_dec n /\ 0 < n < m /\ fits m)
          \/ exists m n, b1 = nat_dec m /\ b2 = nat_dec n /\ m <> n /\ 0 < n /\ fits m /\ fits n))
  \/ (x <> y /\ ~ from_to "VARCHAR"%string "VARCHAR"%string /\ ~ from_to "NUMERIC"%string "NUMERIC"%string
      /\ ~ from_to "CIDR"%string "INET"%string /\ ~ from_to "VARCHAR"%string "TEXT"%string
      /\ ~ (from_to "TEXT"%string "VARCHAR"%string /\ a2 = [])).

(** Names that can be part of a file name. *)
Definition plain (n : bytes) : Prop := ~ In "."%char n /\ ~ In "/"%char n.
Definition plain_names (l : list schema) : Prop :=
  forall s, In s l -> plain (sc_name s)
    /\ forall t, In t (sc_tables s) -> plain (tb_name t) /\ plain (tb_schema t)
       /\ (forall c, In c (tb_constraints t) ->
             plain (con_name c) /\ plain (con_schema c) /\ plain (con_table c) /\ plain (con_refschema c) /\ plain (con_reftable c))
       /\ forall x, In x (tb_indexes t) -> plain (ix_name x).
