(** What the statements of a migration do to a database, and when a database and a catalog
    agree.  A statement is refused whenever one of the database systems would refuse it
    because of the tables, columns, keys and indexes that exist; rows are not considered.
    Check constraints do not depend on columns, indexes that a system creates on its own
    are left out, and the types of referencing and referenced columns are not compared.
    The parts of an ALTER TABLE of MySQL are statements that are run one after the other. *)
From Verif Require Import GoStr ModelCatalog ModelDdl ModelDiffSql SpecDiff.

(** ** Databases *)
Record dcolumn := DColumn {
  dc_type : bytes; dc_notnull : bool; dc_identity : bytes; dc_default : bytes; dc_collation : bytes
}.
Record dtable := DTable {
  dt_columns : bytes -> option dcolumn;
  dt_constraints : bytes -> option constraint;
  dt_indexes : bytes -> option index
}.
(** Tables are found by the names of their schema and of their own. *)
Record database := Database { db_schemas : bytes -> bool; db_tables : qname -> option dtable }.

Definition qeqb (a b : qname) : bool := beqb (fst a) (fst b) && beqb (snd a) (snd b).
Definition put {A} (f : bytes -> option A) (n : bytes) (o : option A) : bytes -> option A :=
  fun m => if beqb m n then o else f m.
Definition set_table (x : database) (q : qname) (o : option dtable) : database :=
  Database (db_schemas x) (fun p => if qeqb p q then o else db_tables x p).
Definition change_at (x : database) (q : qname) (f : dtable -> dtable) : database :=
  match db_tables x q with Some dt => set_table x q (Some (f dt)) | None => x end.
Definition put_column (n : bytes) (o : option dcolumn) (dt : dtable) : dtable :=
  DTable (put (dt_columns dt) n o) (dt_constraints dt) (dt_indexes dt).
Definition put_constraint (n : bytes) (o : option constraint) (dt : dtable) : dtable :=
  DTable (dt_columns dt) (put (dt_constraints dt) n o) (dt_indexes dt).
Definition put_index (n : bytes) (o : option index) (dt : dtable) : dtable :=
  DTable (dt_columns dt) (dt_constraints dt) (put (dt_indexes dt) n o).
Definition change_column (n : bytes) (f : dcolumn -> dcolumn) (dt : dtable) : dtable :=
  match dt_columns dt n with Some c => put_column n (Some (f c)) dt | None => dt end.

Definition primary (c : constraint) : Prop := con_type c = PRIMARY_KEY.
Definition foreign (c : constraint) : Prop := con_type c = FOREIGN_KEY.
Definition unique_key (c : constraint) : Prop := con_type c = PRIMARY_KEY \/ con_type c = UNIQUE.
Definition same_set (a b : list bytes) : Prop := forall n, In n a <-> In n b.

(** A name without a schema is looked up in the current schema. *)
Definition place (cur : bytes) (q : qname) : qname := match fst q with [] => (cur, snd q) | _ => q end.
(** The table that a foreign key refers to. *)
Definition target (cur : bytes) (c : constraint) : qname := place cur (con_refschema c, con_reftable c).

(** ** Names *)
(** Objects with names and the name spaces in which they have to be different from others. *)
Inductive object := OTable (q : qname) | OConstraint (q : qname) (c : constraint) | OIndex (q : qname) (x : index).
Inductive space := Tables | Constraints | Indexes.
(** The name of a space, the schema, perhaps the table, and the name in this space. *)
Definition entry := (space * bytes * option bytes * bytes)%type.
Definition is_a_key (c : constraint) : bool := beqb (con_type c) PRIMARY_KEY || beqb (con_type c) UNIQUE.
Definition entries_of (d : dialect) (o : object) : list entry :=
  match d, o with
  | Postgres, OTable q => [(Indexes, fst q, None, snd q)]
  | Postgres, OIndex q x => [(Indexes, fst q, None, ix_name x)]
  | Postgres, OConstraint q c =>
      (Constraints, fst q, Some (snd q), con_name c) :: if is_a_key c then [(Indexes, fst q, None, con_name c)] else []
  | SQLServer, OTable q => [(Constraints, fst q, None, snd q)]
  | SQLServer, OConstraint q c =>
      (Constraints, fst q, None, con_name c) :: if is_a_key c then [(Indexes, fst q, Some (snd q), con_name c)] else []
  | _, OTable q => [(Tables, fst q, None, snd q)]
  | _, OConstraint q c =>
      if is_a_key c then [(Indexes, fst q, Some (snd q), con_name c)] else [(Constraints, fst q, None, con_name c)]
  | _, OIndex q x => [(Indexes, fst q, Some (snd q), ix_name x)]
  end.
Definition holds (x : database) (o : object) : Prop :=
  match o with
  | OTable q => exists dt, db_tables x q = Some dt
  | OConstraint q c => exists dt, db_tables x q = Some dt /\ dt_constraints dt (con_name c) = Some c
  | OIndex q i => exists dt, db_tables x q = Some dt /\ dt_indexes dt (ix_name i) = Some i
  end.
Definition fresh (d : dialect) (x : database) (o : object) : Prop :=
  forall o' k, holds x o' -> In k (entries_of d o) -> ~ In k (entries_of d o').

(** ** Columns *)
(** The column that a definition creates: types are written in upper case, the default
    collation is not written (dump_cmd.go:1170-1222). *)
Definition written (d : dialect) (coll : bytes) (c : column) : dcolumn :=
  DColumn (match col_domain c with [] => if col_enum c then col_type c else to_upper (col_type c) | n => n end)
    (col_notnull c) (match d with Postgres | SQLServer => col_identity c | _ => [] end) (col_default c)
    (if beqb (col_collation c) coll then [] else col_collation c).
Definition set_notnull (b : bool) (c : dcolumn) : dcolumn := DColumn (dc_type c) b (dc_identity c) (dc_default c) (dc_collation c).
Definition set_default (s : bytes) (c : dcolumn) : dcolumn := DColumn (dc_type c) (dc_notnull c) (dc_identity c) s (dc_collation c).
Definition set_identity (s : bytes) (c : dcolumn) : dcolumn := DColumn (dc_type c) (dc_notnull c) s (dc_default c) (dc_collation c).
Definition set_type (ty coll : bytes) (null : option bool) (c : dcolumn) : dcolumn :=
  DColumn ty (match null with Some b => negb b | None => dc_notnull c end) (dc_identity c) (dc_default c) coll.

(** The columns of a primary key are not NULL. *)
Definition with_constraint (c : constraint) (dt : dtable) : dtable :=
  DTable (if beqb (con_type c) PRIMARY_KEY
          then fun n => if bmem n (con_columns c) then option_map (set_notnull true) (dt_columns dt n) else dt_columns dt n
          else dt_columns dt)
    (put (dt_constraints dt) (con_name c) (Some c)) (dt_indexes dt).
Definition with_flags (a b : bool) (c : constraint) : constraint :=
  Constraint (con_schema c) (con_table c) (con_name c) (con_type c) (con_columns c)
    (con_refschema c) (con_reftable c) (con_refcolumns c) (con_update c) (con_delete c) (con_match c) (con_check c)
    (con_operators c) (con_indextype c) (con_predicate c) a b (con_clustered c) (con_notvalid c) (con_ignore c).
(** CHECK (n IS NOT NULL). *)
Definition a_check (q : qname) (name : bytes) : constraint :=
  Constraint (fst q) (snd q) name CHECK [] [] [] [] [] [] [] [] [] [] [] false false false false false.

(** ** CREATE TABLE *)
(** The columns and constraints that are written, dump_cmd.go:1026-1040 and 1075-1091. *)
Definition created_columns (t : table) : list column :=
  filter (fun c => negb (col_ignore c || (col_generated c && match col_expr c with [] => true | _ => false end))) (tb_columns t).
Definition created_constraints (t : table) : list constraint :=
  filter (fun c => negb (con_ignore c) && negb (beqb (con_type c) FOREIGN_KEY)) (tb_constraints t).
Definition called {A} (name : A -> bytes) (l : list A) (n : bytes) : option A := find (fun a => beqb (name a) n) l.
Definition new_table (d : dialect) (coll : bytes) (t : table) : dtable :=
  fold_left (fun dt c => with_constraint c dt) (created_constraints t)
    (DTable (fun n => option_map (written d coll) (called col_name (created_columns t) n)) (fun _ => None) (fun _ => None)).

(** ** Statements *)
Section Statements.
Context (d : dialect) (cur coll : bytes).

Definition has_columns (dt : dtable) (l : list bytes) : Prop := forall n, In n l -> dt_columns dt n <> None.
(** The columns of an index can be expressions in brackets. *)
Definition has_index_columns (dt : dtable) (x : index) : Prop :=
  (forall n, In n (ix_columns x) -> dt_columns dt n <> None \/ wrapped_in_brackets n = true) /\ has_columns dt (ix_include x).
(** A foreign key refers to the columns of a primary key or unique constraint. *)
Definition can_refer (x : database) (c : constraint) : Prop :=
  exists dt k n, db_tables x (target cur c) = Some dt /\ has_columns dt (con_refcolumns c)
    /\ dt_constraints dt n = Some k /\ unique_key k /\ same_set (con_columns k) (con_refcolumns c).
Definition refers_to (x : database) (c : constraint) : Prop :=
  foreign c /\ exists q dt n, db_tables x q = Some dt /\ dt_constraints dt n = Some c.
Definition no_primary (dt : dtable) : Prop := forall n c, dt_constraints dt n = Some c -> ~ primary c.
(** MySQL ignores the name of a primary key. *)
Definition right_name (c : constraint) : Prop := d = MySQL -> primary c -> con_name c = B"PRIMARY".

Definition at_table_of (x : database) (q : qname) (P : dtable -> Prop) : Prop :=
  exists dt, db_tables x (place cur q) = Some dt /\ P dt.
Definition at_column_of (x : database) (q : qname) (n : bytes) (P : dtable -> dcolumn -> Prop) : Prop :=
  exists dt c, db_tables x (place cur q) = Some dt /\ dt_columns dt n = Some c /\ P dt c.

(** The statement is not refused. *)
Definition allowed (x : database) (s : stmt) : Prop :=
  match s with
  | QDropSchema n =>
      db_schemas x n = true
      /\ (forall q dt m c, db_tables x q = Some dt -> fst q <> n -> dt_constraints dt m = Some c -> foreign c -> fst (target cur c) <> n)
      /\ (d = SQLServer -> forall t, db_tables x (n, t) = None)
  | QCreateSchema n => n <> [] /\ db_schemas x n = false
  | QDropTable q =>
      at_table_of x q (fun _ => forall p dt m c, db_tables x p = Some dt -> p <> place cur q -> dt_constraints dt m = Some c ->
                         foreign c -> target cur c <> place cur q)
  | QCreateTable q t =>
      db_schemas x (fst (place cur q)) = true /\ db_tables x (place cur q) = None /\ fresh d x (OTable (place cur q))
      /\ tb_sql t = [] /\ created_columns t <> [] /\ NoDup (map col_name (created_columns t))
      /\ NoDup (map con_name (created_constraints t))
      /\ (forall a b, In a (created_constraints t) -> In b (created_constraints t) -> primary a -> primary b -> a = b)
      /\ forall c, In c (created_constraints t) -> con_name c <> [] /\ right_name c /\ fresh d x (OConstraint (place cur q) c)
           /\ (unique_key c -> con_columns c <> [] /\ forall n, In n (con_columns c) -> In n (map col_name (created_columns t)))
  | QCreateIndex q i _ =>
      at_table_of x q (fun dt => fresh d x (OIndex (place cur q) i) /\ ix_columns i <> [] /\ has_index_columns dt i)
  | QDropIndex q n => at_table_of x q (fun dt => dt_indexes dt n <> None)
  | QDropColumn q n =>
      at_column_of x q n (fun dt _ =>
        (forall m c, dt_constraints dt m = Some c -> unique_key c \/ foreign c -> ~ In n (con_columns c))
        /\ (forall m i, dt_indexes dt m = Some i ->
           (In n (ix_columns i) -> wrapped_in_brackets n = true) /\ ~ In n (ix_include i))
        /\ (forall c, refers_to x c -> target cur c = place cur q -> ~ In n (con_refcolumns c)))
  | QAddColumn q c => at_table_of x q (fun dt => dt_columns dt (col_name c) = None)
  | QModifyColumn q c =>
      at_column_of x q (col_name c) (fun dt _ =>
        forall m k, dt_constraints dt m = Some k -> primary k -> In (col_name c) (con_columns k) -> col_notnull c = true)
  | QSetType q n ty co null => at_column_of x q n (fun dt _ => co <> Some [])
  | QSetDefault q n def => at_column_of x q n (fun _ c => dc_identity c = [])
  | QDropDefault q n => at_column_of x q n (fun _ c => dc_identity c = [])
  | QSetNotNull q n => at_column_of x q n (fun _ _ => True)
  | QDropNotNull q n =>
      at_column_of x q n (fun dt c => dc_identity c = []
        /\ forall m k, dt_constraints dt m = Some k -> primary k -> ~ In n (con_columns k))
  | QAddIdentity q n kind => at_column_of x q n (fun _ c => dc_notnull c = true /\ dc_identity c = [] /\ dc_default c = [])
  | QDropIdentity q n => at_column_of x q n (fun _ c => dc_identity c <> [])
  | QAddCheck q name n =>
      at_column_of x q n (fun dt _ => dt_constraints dt name = None /\ fresh d x (OConstraint (place cur q) (a_check (place cur q) name)))
  | QAddConstraint q c _ =>
      at_table_of x q (fun dt => con_name c <> [] /\ dt_constraints dt (con_name c) = None /\ fresh d x (OConstraint (place cur q) c)
        /\ con_columns c <> [] /\ has_columns dt (con_columns c) /\ right_name c
        /\ (primary c -> no_primary dt) /\ (foreign c -> can_refer x c))
  | QAddUsingIndex q c =>
      at_table_of x q (fun dt => con_name c <> [] /\ unique_key c /\ dt_constraints dt (con_name c) = None
        /\ (exists i, dt_indexes dt (con_name c) = Some i /\ ix_unique i = true /\ ix_columns i = con_columns c)
        /\ fresh d (change_at x (place cur q) (put_index (con_name c) None)) (OConstraint (place cur q) c)
        /\ (primary c -> no_primary dt))
  | QAlterConstraint q c =>
      at_table_of x q (fun dt => (con_deferred c = true -> con_deferrable c = true)
        /\ exists k, dt_constraints dt (con_name c) = Some k /\ foreign k)
  | QValidate q n | QDropCheck q n => at_table_of x q (fun dt => dt_constraints dt n <> None)
  | QDropConstraint q c =>
      at_table_of x q (fun dt => exists k, dt_constraints dt (con_name c) = Some k
        /\ (unique_key k -> forall f, refers_to x f -> target cur f = place cur q -> ~ same_set (con_columns k) (con_refcolumns f)))
  | QCopyRows _ _ _ | QRename _ _ | QPragma _ => False
  end.

(** The database after the statement. *)
Definition effect (x : database) (s : stmt) : database :=
  match s with
  | QDropSchema n =>
      Database (fun m => if beqb m n then false else db_schemas x m) (fun q => if beqb (fst q) n then None else db_tables x q)
  | QCreateSchema n => Database (fun m => if beqb m n then true else db_schemas x m) (db_tables x)
  | QDropTable q => set_table x (place cur q) None
  | QCreateTable q t => set_table x (place cur q) (Some (new_table d coll t))
  | QCreateIndex q i _ => change_at x (place cur q) (put_index (ix_name i) (Some i))
  | QDropIndex q n => change_at x (place cur q) (put_index n None)
  | QDropColumn q n => change_at x (place cur q) (put_column n None)
  | QAddColumn q c | QModifyColumn q c => change_at x (place cur q) (put_column (col_name c) (Some (written d coll c)))
  | QSetType q n ty co null =>
      change_at x (place cur q) (change_column n (set_type ty (match co with Some s => s | None => [] end) null))
  | QSetDefault q n def => change_at x (place cur q) (change_column n (set_default def))
  | QDropDefault q n => change_at x (place cur q) (change_column n (set_default []))
  | QSetNotNull q n => change_at x (place cur q) (change_column n (set_notnull true))
  | QDropNotNull q n => change_at x (place cur q) (change_column n (set_notnull false))
  | QAddIdentity q n kind => change_at x (place cur q) (change_column n (set_identity kind))
  | QDropIdentity q n => change_at x (place cur q) (change_column n (set_identity []))
  | QAddCheck q name _ => change_at x (place cur q) (put_constraint name (Some (a_check (place cur q) name)))
  | QAddConstraint q c _ => change_at x (place cur q) (with_constraint c)
  | QAddUsingIndex q c =>
      (* the constraint is not deferrable *)
      change_at x (place cur q) (fun dt => with_constraint (with_flags false false c) (put_index (con_name c) None dt))
  | QAlterConstraint q c =>
      change_at x (place cur q) (fun dt =>
        match dt_constraints dt (con_name c) with
        | Some k => put_constraint (con_name c) (Some (with_flags (con_deferrable c) (con_deferred c) k)) dt
        | None => dt
        end)
  | QDropConstraint q c => change_at x (place cur q) (put_constraint (con_name c) None)
  | QDropCheck q n => change_at x (place cur q) (put_constraint n None)
  | QValidate _ _ | QCopyRows _ _ _ | QRename _ _ | QPragma _ => x
  end.

(** All statements are run and none is refused. *)
Fixpoint runs (l : list stmt) (x : database) : Prop :=
  match l with [] => True | s :: l' => allowed x s /\ runs l' (effect x s) end.
Definition after (l : list stmt) (x : database) : database := fold_left effect l x.
End Statements.

(** ** Catalogs and databases *)
Definition located (l : list schema) (q : qname) (t : table) : Prop :=
  exists s, In s l /\ In t (sc_tables s) /\ q = (sc_name s, tb_name t).
Definition stored (c : column) : dcolumn :=
  DColumn (col_type c) (col_notnull c) (col_identity c) (col_default c) (col_collation c).
Definition shows (t : table) (dt : dtable) : Prop :=
  forall n, dt_columns dt n = option_map stored (called col_name (tb_columns t) n)
    /\ dt_constraints dt n = called con_name (tb_constraints t) n
    /\ dt_indexes dt n = called ix_name (tb_indexes t) n.
(** The catalog is what can be read from the database. *)
Definition describes (l : list schema) (x : database) : Prop :=
  (forall n, db_schemas x n = true <-> In n (map sc_name l))
  /\ (forall q, (exists dt, db_tables x q = Some dt) <-> exists t, located l q t)
  /\ forall q t dt, located l q t -> db_tables x q = Some dt -> shows t dt.

(** Columns are alike if their types, defaults and collations are ways to write the same,
    and both or none are NOT NULL and identities. *)
Definition alike (d : dialect) (coll : bytes) (a : dcolumn) (b : column) : Prop :=
  (exists x, normalize_column_type d (dc_type a) = Ok x /\ normalize_column_type d (col_type b) = Ok x)
  /\ normalize_column_default d (dc_default a) = normalize_column_default d (col_default b)
  /\ dc_notnull a = col_notnull b /\ (dc_identity a = [] <-> col_identity b = [])
  /\ (let name c := match c with [] => coll | _ => c end in name (dc_collation a) = name (col_collation b)).
Definition same_constraint (cur : bytes) (a b : constraint) : Prop :=
  con_type a = con_type b /\ con_columns a = con_columns b
  /\ (foreign b -> target cur a = target cur b /\ con_refcolumns a = con_refcolumns b).
Definition same_flags (a b : constraint) : Prop :=
  con_deferrable a = con_deferrable b /\ con_deferred a = con_deferred b.
(** The database has the tables of the catalog, and these have the columns, keys and indexes
    that the catalog says. *)
Definition agrees_table (d : dialect) (cur coll : bytes) (dt : dtable) (t : table) : Prop :=
  (forall n, dt_columns dt n = None <-> called col_name (tb_columns t) n = None)
  /\ (forall n a b, dt_columns dt n = Some a -> called col_name (tb_columns t) n = Some b -> alike d coll a b)
  /\ (forall n a, dt_constraints dt n = Some a -> unique_key a \/ foreign a -> exists b, called con_name (tb_constraints t) n = Some b)
  /\ (forall n b, called con_name (tb_constraints t) n = Some b -> unique_key b \/ foreign b ->
        exists a, dt_constraints dt n = Some a /\ same_constraint cur a b)
  /\ (d = Postgres -> forall n a b, dt_constraints dt n = Some a -> called con_name (tb_constraints t) n = Some b -> same_flags a b)
  /\ (forall n, dt_indexes dt n = None <-> called ix_name (tb_indexes t) n = None).
Definition agrees (d : dialect) (cur coll : bytes) (x : database) (l : list schema) : Prop :=
  (forall n, db_schemas x n = true <-> In n (map sc_name l))
  /\ (forall q, (exists dt, db_tables x q = Some dt) <-> exists t, located l q t)
  /\ forall q t dt, located l q t -> db_tables x q = Some dt -> agrees_table d cur coll dt t.

(** ** Catalogs to which the claim is restricted *)
(** Nothing is ignored, everything has a name of its own and belongs where it is found. *)
Definition orderly (l : list schema) : Prop :=
  unique_names l
  /\ (forall s, In s l -> sc_name s <> [] /\ sc_ignore s = false)
  /\ (forall q t, located l q t -> tb_ignore t = false
        /\ (forall c, In c (tb_columns t) -> col_ignore c = false)
        /\ (forall c, In c (tb_constraints t) -> con_ignore c = false /\ con_name c <> [] /\ (con_schema c, con_table c) = q)
        /\ (forall i, In i (tb_indexes t) -> ix_ignore i = false /\ (ix_schema i, ix_table i) = q)).
(** Names of columns of constraints are not empty and have no zero bytes. *)
Definition plain_names (l : list schema) : Prop :=
  forall q t c n, located l q t -> In c (tb_constraints t) -> In n (con_columns c) -> n <> [] /\ ~ In (ascii_of_nat 0) n.
(** A table has at most one primary key, and its columns are not NULL. *)
Definition proper_keys (l : list schema) : Prop :=
  forall q t, located l q t ->
    (forall a b, In a (tb_constraints t) -> In b (tb_constraints t) -> primary a -> primary b -> a = b)
    /\ (forall k c, In k (tb_constraints t) -> primary k -> In c (tb_columns t) -> In (col_name c) (con_columns k) -> col_notnull c = true).
(** Tables can be created as the catalog says. *)
Definition creatable (d : dialect) (cur : bytes) (l : list schema) : Prop :=
  forall q t, located l q t ->
    tb_sql t = [] /\ tb_columns t <> []
    /\ (forall c, In c (tb_columns t) ->
          (col_generated c = true -> col_expr c <> []) /\ col_domain c = [] /\ (d = MySQL -> col_identity c = [])
          /\ (col_pkey c = true -> exists k, In k (tb_constraints t) /\ primary k /\ In (col_name c) (con_columns k))
          /\ (d = Postgres -> col_table c = tb_name t
              /\ forall k, In k (tb_constraints t) -> con_name k <> tb_name t ++ B"_" ++ col_name c ++ B"_not_null_check"))
    /\ (forall k, In k (tb_constraints t) -> unique_key k \/ foreign k ->
          con_columns k <> [] /\ forall n, In n (con_columns k) -> In n (map col_name (tb_columns t)))
    /\ (forall k, In k (tb_constraints t) -> primary k -> d = MySQL -> con_name k = B"PRIMARY")
    /\ (forall k, In k (tb_constraints t) -> unique_key k -> d = Postgres -> con_deferrable k = false /\ con_deferred k = false)
    /\ (forall k, In k (tb_constraints t) -> foreign k ->
          (con_deferred k = true -> con_deferrable k = true)
          /\ exists u r, located l (target cur k) u /\ (forall n, In n (con_refcolumns k) -> In n (map col_name (tb_columns u)))
             /\ In r (tb_constraints u) /\ unique_key r /\ same_set (con_columns r) (con_refcolumns k))
    /\ (forall i, In i (tb_indexes t) -> ix_columns i <> []
          /\ (forall n, In n (ix_columns i) -> In n (map col_name (tb_columns t)) \/ wrapped_in_brackets n = true)
          /\ forall n, In n (ix_include i) -> In n (map col_name (tb_columns t))).

(** ** Pairs of catalogs *)
Definition object_of (l : list schema) (o : object) : Prop :=
  match o with
  | OTable q => exists t, located l q t
  | OConstraint q c => exists t, located l q t /\ In c (tb_constraints t)
  | OIndex q i => exists t, located l q t /\ In i (tb_indexes t)
  end.
(** Where an object is and what it is called. *)
Definition slot (o : object) : nat * qname * bytes :=
  match o with
  | OTable q => (0, q, [])
  | OConstraint q c => (1, q, con_name c)
  | OIndex q i => (2, q, ix_name i)
  end.
(** No name is taken by an object of one catalog and by another object of the same or the
    other catalog. *)
Definition separate (d : dialect) (src dest : list schema) : Prop :=
  forall o o' k, object_of src o \/ object_of dest o -> object_of src o' \/ object_of dest o' ->
    In k (entries_of d o) -> In k (entries_of d o') -> slot o = slot o'.
(** Constraints and indexes of the same name have the same columns; the columns of a primary
    key can change on MySQL. *)
Definition same_objects (d : dialect) (cur : bytes) (src dest : list schema) : Prop :=
  forall q s t, located src q s -> located dest q t ->
    (forall a b, In a (tb_constraints s) -> In b (tb_constraints t) -> con_name a = con_name b ->
       con_type a = con_type b /\ (con_columns a = con_columns b \/ d = MySQL /\ primary b)
       /\ (foreign b -> target cur a = target cur b /\ con_refcolumns a = con_refcolumns b)
       /\ (d = Postgres -> ~ foreign b -> same_flags a b))
    /\ (forall i j, In i (tb_indexes s) -> In j (tb_indexes t) -> ix_name i = ix_name j ->
          ix_columns i = ix_columns j /\ ix_include i = ix_include j).
(** The keys to which foreign keys of both catalogs refer stay the same. *)
Definition kept_targets (cur : bytes) (src dest : list schema) : Prop :=
  forall q s t f g s' t' k, located src q s -> located dest q t -> In f (tb_constraints s) -> In g (tb_constraints t) ->
    con_name f = con_name g -> foreign g -> located src (target cur g) s' -> located dest (target cur g) t' ->
    In k (tb_constraints s') -> unique_key k -> same_set (con_columns k) (con_refcolumns g) ->
    exists k', In k' (tb_constraints t') /\ con_name k' = con_name k /\ con_columns k' = con_columns k.
(** Tables with superfluous columns differ in other ways, too; see C38. *)
Definition noticed (src dest : list schema) : Prop :=
  forall q s t, located src q s -> located dest q t -> extra_columns s t <> [] -> altered_table s t.

(** Postgres: changes of columns for which there are statements. *)
Definition literal (flt : bytes -> bool) (s : bytes) : Prop :=
  (exists m, s = B"'" ++ m ++ B"'")
  \/ In (to_upper s) (map B ["TRUE"; "FALSE"; "CURRENT_DATE"; "CURRENT_TIME"; "CURRENT_TIMESTAMP"; "NULL"]%string)
  \/ flt s = true.
Definition convertible (flt : bytes -> bool) (cat : catalog) (a b : column) : Prop :=
  let da := normalize_column_default Postgres (col_default a) in
  let db := normalize_column_default Postgres (col_default b) in
  let name c := match c with [] => ct_collation cat | _ => c end in
  (da = db \/ (col_identity a = [] /\ (da = [] \/ db = [] \/ (literal flt da /\ literal flt db))))
  /\ normalize_column_default Postgres db = db
  /\ (name (col_collation a) = name (col_collation b) \/ col_collation b <> [])
  /\ (col_notnull a = true -> col_notnull b = false -> col_identity a = [])
  /\ (col_identity a = [] -> col_identity b <> [] ->
        col_default b = [] /\ (da = [] -> col_default a = []) /\ col_notnull b = true
        /\ (col_notnull a = true \/ lower_than (map Z.of_nat (ct_version cat)) [12%Z] = true)).
Definition all_convertible (flt : bytes -> bool) (cat : catalog) (src dest : list schema) : Prop :=
  forall q s t a b, located src q s -> located dest q t -> In a (tb_columns s) -> In b (tb_columns t) -> col_name a = col_name b ->
    convertible flt cat a b.
(** The names of the temporary check constraints are not in use. *)
Definition free_checks (src dest : list schema) : Prop :=
  forall q s t c k, located src q s -> located dest q t -> In c (tb_columns t) -> In k (tb_constraints s) ->
    con_name k <> tb_name t ++ B"_" ++ col_name c ++ B"_not_null_check".

(** What is asked of the two catalogs. *)
Definition suitable (d : dialect) (flt : bytes -> bool) (src dest : catalog) : Prop :=
  let a := ct_schemas src in
  let b := ct_schemas dest in
  let cur := ct_current src in
  (orderly a /\ orderly b) /\ (proper_keys a /\ proper_keys b) /\ (plain_names a /\ plain_names b)
  /\ (readable_types d a /\ readable_types d b) /\ creatable d cur b /\ same_objects d cur a b /\ kept_targets cur a b
  /\ separate d a b /\ noticed a b
  /\ (d = Postgres -> all_convertible flt src a b /\ free_checks a b /\ one_owner a /\ one_owner b).
