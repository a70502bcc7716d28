(** What the statements of a migration do to a SQLite database, and when such a database and a
    catalog agree.  A statement is refused whenever SQLite would refuse it because of the
    tables, columns, keys and indexes that exist; tables are taken to have rows, but the rows
    are left out.  Check constraints, generated columns,
    triggers and views are left out, foreign keys are not enforced, expressions of indexes do
    not depend on columns, and names that differ in upper and lower case only are taken to be
    different. *)
From Verif Require Import GoStr ModelCatalog ModelDdl ModelDiffSql SpecDiff SpecApply.

(** ** Databases *)
Record lcolumn := LColumn { lc_type : bytes; lc_notnull : bool; lc_default : bytes }.
(** A key is part of the definition of a column, or it is a table constraint. *)
Record lkey := LKey { lk_kind : bytes; lk_columns : list bytes; lk_table : bytes; lk_refcolumns : list bytes; lk_inline : bool }.
Record ltable := LTable { lt_columns : bytes -> option lcolumn; lt_keys : list lkey; lt_indexes : bytes -> option index }.
Definition ldatabase := bytes -> option ltable.

Definition set_at (x : ldatabase) (n : bytes) (o : option ltable) : ldatabase := fun m => if beqb m n then o else x m.
Definition change_lt (x : ldatabase) (n : bytes) (f : ltable -> ltable) : ldatabase :=
  match x n with Some lt => set_at x n (Some (f lt)) | None => x end.
Definition put_ix (n : bytes) (o : option index) (lt : ltable) : ltable :=
  LTable (lt_columns lt) (lt_keys lt) (put (lt_indexes lt) n o).
(** Tables and indexes share one name space. *)
Definition unused (x : ldatabase) (n : bytes) : Prop := x n = None /\ forall m lt, x m = Some lt -> lt_indexes lt n = None.

Definition a_key (c : constraint) : Prop := unique_key c \/ foreign c.
(** The key that a constraint is. *)
Definition key_of (inline : bool) (c : constraint) : lkey :=
  if beqb (con_type c) FOREIGN_KEY then LKey (con_type c) (con_columns c) (con_reftable c) (con_refcolumns c) inline
  else LKey (con_type c) (con_columns c) [] [] inline.
Definition same_key (a b : lkey) : Prop :=
  lk_kind a = lk_kind b /\ lk_columns a = lk_columns b /\ lk_table a = lk_table b /\ lk_refcolumns a = lk_refcolumns b.

(** ** CREATE TABLE *)
(** Types are written in upper case, dump_cmd.go:1174-1180. *)
Definition lite_column (c : column) : lcolumn :=
  LColumn (match col_domain c with [] => if col_enum c then col_type c else to_upper (col_type c) | n => n end)
    (col_notnull c) (col_default c).
(** A primary key with one column is part of the column, all other constraints are written
    after the columns (dump_cmd.go:1043-1061, 1182-1184). *)
Definition single_primary (c : constraint) : bool := beqb (con_type c) PRIMARY_KEY && (List.length (con_columns c) =? 1).
Definition made_keys (t : table) : list lkey :=
  map (fun c => LKey PRIMARY_KEY [col_name c] [] [] true) (filter col_pkey (created_columns t))
  ++ map (key_of false)
       (filter (fun c => negb (con_ignore c) && negb (single_primary c)
                         && (beqb (con_type c) PRIMARY_KEY || beqb (con_type c) UNIQUE || beqb (con_type c) FOREIGN_KEY))
          (tb_constraints t)).
Definition made_table (t : table) : ltable :=
  LTable (fun n => option_map lite_column (called col_name (created_columns t) n)) (made_keys t) (fun _ => None).

(** ** ADD COLUMN *)
(** Defaults of new columns have to be constants. *)
Definition constant (s : bytes) : Prop :=
  wrapped_in_brackets s = false /\ ~ In (to_upper s) (map B ["CURRENT_DATE"; "CURRENT_TIME"; "CURRENT_TIMESTAMP"]%string).
(** A column that can be added to a table. *)
Definition addable (c : column) : Prop :=
  col_pkey c = false /\ col_autoincrement c = false /\ col_unique c = false /\ col_generated c = false /\ col_expr c = []
  /\ constant (col_default c) /\ (col_notnull c = true -> col_default c <> [] /\ to_upper (col_default c) <> B"NULL").

(** ** Statements *)
(** The foreign key that is written together with a column: the fields of a column that tell
    what it refers to are set from the foreign keys with one column of the catalog
    (database_introspector.go:241-265, struct_parser.go:299-322). *)
Section Statements.
Context (ref : bytes -> bytes -> option lkey).

Definition lite_has (lt : ltable) (l : list bytes) : Prop := forall n, In n l -> lt_columns lt n <> None.
Definition lite_allowed (x : ldatabase) (s : stmt) : Prop :=
  match s with
  | QPragma _ => True
  | QDropTable q => x (snd q) <> None
  | QCreateTable q t =>
      unused x (snd q) /\ tb_sql t = [] /\ created_columns t <> [] /\ NoDup (map col_name (created_columns t))
      /\ List.length (filter (fun k => beqb (lk_kind k) PRIMARY_KEY) (made_keys t)) <= 1
      /\ (forall c, In c (created_columns t) -> col_autoincrement c = true -> col_pkey c = true /\ to_upper (col_type c) = B"INTEGER")
      /\ forall k, In k (made_keys t) -> lk_columns k <> [] /\ forall n, In n (lk_columns k) -> In n (map col_name (created_columns t))
  | QCopyRows q p cols =>
      cols <> [] /\ NoDup cols /\ (exists lt, x (snd q) = Some lt /\ lite_has lt cols) /\ exists lt, x (snd p) = Some lt /\ lite_has lt cols
  | QRename q n =>
      x (snd q) <> None /\ unused x n
      /\ forall m lt k, x m = Some lt -> In k (lt_keys lt) -> lk_kind k = FOREIGN_KEY -> lk_table k <> snd q
  | QCreateIndex q i _ =>
      unused x (ix_name i) /\ ix_columns i <> [] /\ ix_sql i = []
      /\ exists lt, x (snd q) = Some lt /\ forall n, In n (ix_columns i) -> lt_columns lt n <> None \/ wrapped_in_brackets n = true
  | QDropIndex _ n => exists m lt, x m = Some lt /\ lt_indexes lt n <> None
  | QDropColumn q n =>
      exists lt, x (snd q) = Some lt /\ lt_columns lt n <> None /\ (exists m, m <> n /\ lt_columns lt m <> None)
        /\ (forall k, In k (lt_keys lt) -> In n (lk_columns k) -> lk_kind k = FOREIGN_KEY /\ lk_inline k = true)
        /\ (forall m i, lt_indexes lt m = Some i -> In n (ix_columns i) -> wrapped_in_brackets n = true)
  | QAddColumn q c => exists lt, x (snd q) = Some lt /\ lt_columns lt (col_name c) = None /\ addable c
  | _ => False
  end.

Definition lite_effect (x : ldatabase) (s : stmt) : ldatabase :=
  match s with
  | QDropTable q => set_at x (snd q) None
  | QCreateTable q t => set_at x (snd q) (Some (made_table t))
  | QRename q n => set_at (set_at x (snd q) None) n (x (snd q))
  | QCreateIndex q i _ => change_lt x (snd q) (put_ix (ix_name i) (Some i))
  | QDropIndex _ n =>
      fun m => option_map (fun lt => match lt_indexes lt n with Some _ => put_ix n None lt | None => lt end) (x m)
  | QDropColumn q n =>
      (* a foreign key that is part of the column goes with it *)
      change_lt x (snd q) (fun lt => LTable (put (lt_columns lt) n None)
        (filter (fun k => negb (lk_inline k && bmem n (lk_columns k))) (lt_keys lt)) (lt_indexes lt))
  | QAddColumn q c =>
      change_lt x (snd q) (fun lt => LTable (put (lt_columns lt) (col_name c) (Some (lite_column c)))
        (lt_keys lt ++ match ref (snd q) (col_name c) with Some k => [k] | None => [] end) (lt_indexes lt))
  | _ => x
  end.

(** All statements are run and none is refused. *)
Fixpoint lite_runs (l : list stmt) (x : ldatabase) : Prop :=
  match l with [] => True | s :: l' => lite_allowed x s /\ lite_runs l' (lite_effect x s) end.
Definition lite_after (l : list stmt) (x : ldatabase) : ldatabase := fold_left lite_effect l x.
End Statements.

(** ** Catalogs and databases *)
(** SQLite has one schema; a catalog without schemas has no tables. *)
Definition tables_in (c : catalog) : list table := flat_map sc_tables (ct_schemas c).
Definition references (l : list table) (t n : bytes) : option lkey :=
  match called tb_name l t with
  | None => None
  | Some u =>
      option_map (key_of true)
        (find (fun c => beqb (con_type c) FOREIGN_KEY && (List.length (con_columns c) =? 1) && bmem n (con_columns c)) (tb_constraints u))
  end.

Definition lite_stored (c : column) : lcolumn := LColumn (col_type c) (col_notnull c) (col_default c).
(** The catalog does not tell whether a key is part of a column. *)
Definition lite_shows (t : table) (lt : ltable) : Prop :=
  (forall n, lt_columns lt n = option_map lite_stored (called col_name (tb_columns t) n))
  /\ (forall k, In k (lt_keys lt) -> exists c, In c (tb_constraints t) /\ same_key k (key_of false c))
  /\ (forall c, In c (tb_constraints t) -> exists k, In k (lt_keys lt) /\ same_key k (key_of false c))
  /\ (forall n, lt_indexes lt n = called ix_name (tb_indexes t) n).
Definition lite_describes (l : list table) (x : ldatabase) : Prop :=
  (forall n, x n <> None <-> In n (map tb_name l))
  /\ forall t lt, In t l -> x (tb_name t) = Some lt -> lite_shows t lt.

Definition lite_alike (a : lcolumn) (b : column) : Prop :=
  lc_type a = col_type b /\ lc_notnull a = col_notnull b
  /\ normalize_column_default SQLite (lc_default a) = normalize_column_default SQLite (col_default b).
Definition lite_agrees_table (lt : ltable) (t : table) : Prop :=
  (forall n, lt_columns lt n = None <-> called col_name (tb_columns t) n = None)
  /\ (forall n a b, lt_columns lt n = Some a -> called col_name (tb_columns t) n = Some b -> lite_alike a b)
  /\ (forall k, In k (lt_keys lt) -> exists c, In c (tb_constraints t) /\ same_key k (key_of false c))
  /\ (forall c, In c (tb_constraints t) -> exists k, In k (lt_keys lt) /\ same_key k (key_of false c))
  /\ (forall n, lt_indexes lt n = None <-> called ix_name (tb_indexes t) n = None)
  /\ (forall n i j, lt_indexes lt n = Some i -> called ix_name (tb_indexes t) n = Some j -> ix_columns i = ix_columns j).
Definition lite_agrees (x : ldatabase) (l : list table) : Prop :=
  (forall n, x n <> None <-> In n (map tb_name l))
  /\ forall t lt, In t l -> x (tb_name t) = Some lt -> lite_agrees_table lt t.

(** ** Catalogs to which the claim is restricted *)
(** There is at most one schema; nothing is ignored, everything has a name of its own and
    belongs where it is found; all constraints are keys with columns. *)
Definition lite_orderly (c : catalog) : Prop :=
  (List.length (ct_schemas c) <= 1 /\ forall s, In s (ct_schemas c) -> sc_name s = [] /\ sc_ignore s = false)
  /\ NoDup (map tb_name (tables_in c))
  /\ forall t, In t (tables_in c) ->
       tb_schema t = [] /\ tb_ignore t = false /\ ~ is_virtual_table t
       /\ NoDup (map col_name (tb_columns t)) /\ NoDup (map ix_name (tb_indexes t))
       /\ (forall x, In x (tb_columns t) -> col_ignore x = false)
       /\ (forall k, In k (tb_constraints t) -> con_ignore k = false /\ con_table k = tb_name t /\ a_key k
             /\ con_columns k <> [] /\ forall n, In n (con_columns k) -> In n (map col_name (tb_columns t)))
       /\ (forall i, In i (tb_indexes t) -> ix_ignore i = false /\ ix_table i = tb_name t).
(** Tables can be created as the catalog says, and the types are in upper case.  The flags of
    the columns are those that the constraints tell. *)
Definition lite_creatable (l : list table) : Prop :=
  forall t, In t l ->
    tb_sql t = [] /\ tb_columns t <> []
    /\ (forall c, In c (tb_columns t) ->
          col_domain c = [] /\ to_upper (col_type c) = col_type c /\ col_generated c = false /\ col_expr c = []
          /\ (col_autoincrement c = true -> col_pkey c = true /\ col_type c = B"INTEGER")
          /\ (col_pkey c = true <-> exists k, In k (tb_constraints t) /\ primary k /\ con_columns k = [col_name c])
          /\ (col_unique c = true -> exists k, In k (tb_constraints t) /\ con_type k = UNIQUE /\ con_columns k = [col_name c]))
    /\ List.length (filter (fun k => beqb (con_type k) PRIMARY_KEY) (tb_constraints t)) <= 1
    /\ (forall a b, In a (tb_constraints t) -> In b (tb_constraints t) -> con_type a = con_type b -> con_columns a = con_columns b ->
          same_key (key_of false a) (key_of false b))
    /\ (forall i, In i (tb_indexes t) -> ix_columns i <> [] /\ ix_sql i = []
          /\ forall n, In n (ix_columns i) -> In n (map col_name (tb_columns t)) \/ wrapped_in_brackets n = true).

(** ** Pairs of catalogs *)
(** A name is used for one table or for one index of one table. *)
Definition table_or_index (l : list table) (n : bytes) (owner : option bytes) : Prop :=
  exists t, In t l /\ match owner with
                      | None => tb_name t = n
                      | Some o => tb_name t = o /\ In n (map ix_name (tb_indexes t))
                      end.
Definition lite_separate (a b : list table) : Prop :=
  forall n o o', table_or_index a n o \/ table_or_index b n o -> table_or_index a n o' \/ table_or_index b n o' -> o = o'.
(** The names of the tables that replace others for a while are not in use, and no foreign key
    refers to them. *)
Definition lite_free (a b : list table) : Prop :=
  forall t, In t b -> (forall o, ~ (table_or_index a (interim t) o \/ table_or_index b (interim t) o))
    /\ forall u k, In u a \/ In u b -> In k (tb_constraints u) -> foreign k -> con_reftable k <> interim t.

(** Tables of the same name. *)
Section Pair.
Context (s t : table).
(** Keys that are compared under the same name are the same key, and indexes of the same name
    have the same columns. *)
Definition lite_faithful : Prop :=
  (forall a b, In a (tb_constraints s) -> In b (tb_constraints t) -> compared_name a = compared_name b -> same_key (key_of false a) (key_of false b))
  /\ forall i j, In i (tb_indexes s) -> In j (tb_indexes t) -> ix_name i = ix_name j -> ix_columns i = ix_columns j.
(** They have a column in common, and the defaults of new columns are constants. *)
Definition lite_shared : Prop := exists n, In n (map col_name (tb_columns s)) /\ In n (map col_name (tb_columns t)).
Definition lite_added : Prop :=
  forall c, In c (tb_columns t) -> ~ In (col_name c) (map col_name (tb_columns s)) ->
    constant (col_default c) /\ (col_notnull c = true -> col_default c <> [] /\ to_upper (col_default c) <> B"NULL").
(** A superfluous column is not the only difference. *)
Definition lite_noticed : Prop :=
  (exists c, In c (tb_columns s) /\ ~ In (col_name c) (map col_name (tb_columns t))) ->
  (exists c, In c (tb_columns t) /\ ~ In (col_name c) (map col_name (tb_columns s)))
  \/ (exists i, In i (tb_indexes s) /\ ~ In (ix_name i) (map ix_name (tb_indexes t)))
  \/ (exists i, In i (tb_indexes t) /\ ~ In (ix_name i) (map ix_name (tb_indexes s)))
  \/ (exists k, In k (tb_constraints s) /\ forall k', In k' (tb_constraints t) -> ~ same_key (key_of false k) (key_of false k'))
  \/ (exists k, In k (tb_constraints t) /\ forall k', In k' (tb_constraints s) -> ~ same_key (key_of false k) (key_of false k'))
  \/ exists a b, In a (tb_columns s) /\ In b (tb_columns t) /\ col_name a = col_name b /\ ~ lite_alike (lite_stored a) b.
End Pair.
(** Foreign keys whose only column is superfluous are part of this column. *)
Definition lite_inline (s t : table) (lt : ltable) : Prop :=
  forall k n, In k (lt_keys lt) -> lk_kind k = FOREIGN_KEY -> lk_columns k = [n] -> ~ In n (map col_name (tb_columns t)) -> lk_inline k = true.

(** What is asked of the two catalogs and of the database. *)
Definition lite_suitable (src dest : catalog) (x : ldatabase) : Prop :=
  let a := tables_in src in
  let b := tables_in dest in
  lite_orderly src /\ lite_orderly dest /\ lite_creatable b /\ lite_separate a b /\ lite_free a b
  /\ forall s t, In s a -> In t b -> tb_name s = tb_name t ->
       lite_faithful s t /\ lite_shared s t /\ lite_added s t /\ lite_noticed s t
       /\ forall lt, x (tb_name s) = Some lt -> lite_inline s t lt.
