(** What a database does with files of statements that create schemas, tables, indexes and
    constraints, and when it has what a catalog says.  The statements are those that can be read
    from the files (SpecDdl.v); nothing here refers to the Go code, except that the catalog is
    that of ModelCatalog.v.  A statement is refused whenever one of the database systems would
    refuse it because of the schemas, tables, columns, keys and indexes that exist.  Types,
    expressions and rows are not considered. *)
From Coq Require Import Permutation.
From Verif Require Import GoStr SpecSql SpecInsert SpecTokens SpecDdl ModelCatalog ModelDiff ModelDiffSql ModelDdlText SpecDdlText SpecDiff SpecApply.

(** ** Files *)
(** Two hyphens and a blank begin a comment, which goes on until the end of the line; in
    Postgres a line also ends with a carriage return. *)
Definition ends_line (d : dialect) (c : ascii) : bool :=
  ceqb c LF || match d with Postgres => ceqb c CR | _ => false end.
Fixpoint next_line (d : dialect) (s : bytes) : bytes :=
  match s with [] => [] | c :: s' => if ends_line d c then s' else next_line d s' end.
Fixpoint lex_file (fuel : nat) (d : dialect) (s : bytes) : option toks :=
  match s, fuel with
  | [], _ => Some []
  | _, 0 => None
  | _, S n =>
      match strip_prefix (B"-- ") s with
      | Some r => lex_file n d (next_line d r)
      | None => let? (ts, r) := lex_one d s in let? l := lex_file n d r in Some (ts ++ l)
      end
  end.
Definition file_tokens (d : dialect) (s : bytes) : option toks := lex_file (List.length s) d s.
Definition read_file (d : dialect) (s : bytes) : option (list statement) :=
  let? ts := file_tokens d s in read_all (List.length ts) d ts.

(** ** Databases *)
(** Constraints and whether they are NOT VALID. *)
Record ltable := LTable {
  lt_place : bytes * bytes; lt_columns : list column_def; lt_constraints : list (constraint_def * bool); lt_indexes : list index_def
}.
Record ldb := LDb { l_schemas : list bytes; l_tables : list ltable }.

Section Loading.
Context (d : dialect) (cur : bytes).

(** A name without a schema is looked up in the current schema. *)
Definition whereabouts (p : list bytes) : option (bytes * bytes) :=
  match p with [n] => Some (cur, n) | [s; n] => Some (s, n) | _ => None end.
Definition find_table (x : ldb) (q : bytes * bytes) : option ltable := find (fun t => qeqb (lt_place t) q) (l_tables x).
Definition change_table (x : ldb) (q : bytes * bytes) (f : ltable -> ltable) : ldb :=
  LDb (l_schemas x) (map (fun t => if qeqb (lt_place t) q then f t else t) (l_tables x)).

(** Names and the spaces in which they have to be different from others, see SpecApply.v. *)
Definition table_entry (q : bytes * bytes) : entry :=
  match d with
  | Postgres => (Indexes, fst q, None, snd q)
  | SQLServer => (Constraints, fst q, None, snd q)
  | _ => (Tables, fst q, None, snd q)
  end.
Definition index_entry (q : bytes * bytes) (n : bytes) : entry :=
  match d with Postgres => (Indexes, fst q, None, n) | _ => (Indexes, fst q, Some (snd q), n) end.
Definition constraint_entries (q : bytes * bytes) (key : bool) (n : bytes) : list entry :=
  match d with
  | Postgres => (Constraints, fst q, Some (snd q), n) :: if key then [(Indexes, fst q, None, n)] else []
  | SQLServer => (Constraints, fst q, None, n) :: if key then [(Indexes, fst q, Some (snd q), n)] else []
  | _ => if key then [(Indexes, fst q, Some (snd q), n)] else [(Constraints, fst q, None, n)]
  end.

Definition is_primary (b : body) : bool := match b with BPrimary _ => true | _ => false end.
Definition is_key (b : body) : bool := match b with BPrimary _ | BUnique _ => true | _ => false end.
(** The constraint has an index of the same name. *)
Definition has_index (b : body) : bool := match b with BPrimary _ | BUnique _ | BExclude _ _ _ => true | _ => false end.
Definition key_columns (b : body) : option (list bytes) :=
  match b with BPrimary l | BUnique l | BForeign l _ _ _ _ => Some l | _ => None end.
(** A primary key of MySQL is always called PRIMARY; other constraints have to have a name here. *)
Definition name_of (k : constraint_def) : option bytes :=
  match d, kd_body k with MySQL, BPrimary _ => Some (B"PRIMARY") | _, _ => kd_name k end.
Definition names_of_constraint (q : bytes * bytes) (k : constraint_def) : list entry :=
  match name_of k with Some n => constraint_entries q (has_index (kd_body k)) n | None => [] end.
Definition names_of_table (t : ltable) : list entry :=
  table_entry (lt_place t) :: flat_map (fun k => names_of_constraint (lt_place t) (fst k)) (lt_constraints t)
  ++ map (fun i => index_entry (lt_place t) (xd_name i)) (lt_indexes t).
Definition names_in (x : ldb) : list entry := flat_map names_of_table (l_tables x).
Definition eqb_space (a b : space) : bool :=
  match a, b with Tables, Tables | Constraints, Constraints | Indexes, Indexes => true | _, _ => false end.
Definition eqb_entry (a b : entry) : bool :=
  let '(s, n, t, m) := a in
  let '(s', n', t', m') := b in
  eqb_space s s' && beqb n n' && beqb m m'
  && match t, t' with None, None => true | Some u, Some u' => beqb u u' | _, _ => false end.
Definition unused (x : ldb) (l : list entry) : bool := forallb (fun k => negb (existsb (eqb_entry k) (names_in x))) l.

Definition has_all (t : ltable) (l : list bytes) : bool := forallb (fun n => bmem n (map cd_name (lt_columns t))) l.
Definition same_names (a b : list bytes) : bool := forallb (fun n => bmem n b) a && forallb (fun n => bmem n a) b.
(** A foreign key refers to the columns of a primary key, a unique constraint or a unique index. *)
Definition plain_element (p : part) : option bytes := match pt_element p with EName n => Some n | EExpr _ => None end.
Fixpoint all_some {A} (l : list (option A)) : option (list A) :=
  match l with [] => Some [] | None :: _ => None | Some a :: l' => let? r := all_some l' in Some (a :: r) end.
Definition unique_on (t : ltable) (l : list bytes) : bool :=
  existsb (fun k => match kd_body (fst k) with BPrimary m | BUnique m => same_names m l | _ => false end) (lt_constraints t)
  || existsb (fun i => xd_unique i && match xd_where i with None => true | Some _ => false end
       && match all_some (map plain_element (xd_elements i)) with Some m => same_names m l | None => false end) (lt_indexes t).
(** The foreign keys of MySQL are not checked: load switches that off for constraints.sql. *)
Definition can_target (x : ldb) (b : body) : bool :=
  match b, d with
  | BForeign _ _ _ _ _, MySQL => true
  | BForeign _ p refs _ _, _ =>
      match whereabouts p with
      | Some q => match find_table x q with Some u => has_all u refs && unique_on u refs | None => false end
      | None => false
      end
  | _, _ => true
  end.
Definition can_have (x : ldb) (t : ltable) (k : constraint_def) : bool :=
  match key_columns (kd_body k) with Some [] => false | Some l => has_all t l | None => true end
  && negb (is_primary (kd_body k) && existsb (fun o => is_primary (kd_body (fst o))) (lt_constraints t))
  && can_target x (kd_body k).
Definition add_constraint (q : bytes * bytes) (k : constraint_def) (notvalid : bool) (x : ldb) : option ldb :=
  let? t := find_table x q in
  let? n := name_of k in
  if can_have x t k && unused x (constraint_entries q (has_index (kd_body k)) n)
  then Some (change_table x q (fun t => LTable (lt_place t) (lt_columns t) (lt_constraints t ++ [(k, notvalid)]) (lt_indexes t)))
  else None.

(** A default that takes the next number of a sequence: there are no sequences here. *)
Definition uses_sequence (e : toks) : bool := match e with Word w :: _ => beqb (to_lower w) (B"nextval") | _ => false end.
(** The column with AUTO_INCREMENT in MySQL is the first of a key. *)
Definition leads (n : bytes) (k : constraint_def) : bool :=
  is_key (kd_body k) && match key_columns (kd_body k) with Some (m :: _) => beqb m n | _ => false end.
(** Constraints of a column are not understood. *)
Definition can_create (c : column_def) : bool :=
  negb (cd_primary c) && negb (cd_unique c) && match cd_refers c with None => true | Some _ => false end
  && match d, cd_default c with Postgres, Some e => negb (uses_sequence e) | _, _ => true end.
Fixpoint distinct (l : list bytes) : bool := match l with [] => true | n :: l' => negb (bmem n l') && distinct l' end.
Definition can_create_all (cs : list column_def) (ks : list constraint_def) : bool :=
  negb (none cs) && distinct (map cd_name cs) && forallb can_create cs
  && match d with
     | MySQL => match filter cd_auto cs with [] => true | [c] => existsb (leads (cd_name c)) ks | _ => false end
     | _ => true
     end.
Definition each_in {A X} (f : A -> X -> option X) (l : list A) (x : option X) : option X :=
  fold_left (fun o a => let? x := o in f a x) l x.
Definition add_table (q : bytes * bytes) (cs : list column_def) (ks : list constraint_def) (x : ldb) : option ldb :=
  if bmem (fst q) (l_schemas x) && unused x [table_entry q] && negb (existsb (fun t => qeqb (lt_place t) q) (l_tables x)) && can_create_all cs ks
  then each_in (fun k => add_constraint q k false) ks (Some (LDb (l_schemas x) (l_tables x ++ [LTable q cs [] []])))
  else None.
Definition can_index (t : ltable) (i : index_def) : bool :=
  negb (none (xd_elements i))
  && forallb (fun p => match plain_element p with Some n => bmem n (map cd_name (lt_columns t)) | None => true end) (xd_elements i)
  && has_all t (xd_include i).
Definition add_index (q : bytes * bytes) (i : index_def) (x : ldb) : option ldb :=
  let? t := find_table x q in
  if can_index t i && unused x [index_entry q (xd_name i)]
  then Some (change_table x q (fun t => LTable (lt_place t) (lt_columns t) (lt_constraints t) (lt_indexes t ++ [i])))
  else None.

(** The database after a statement, if it is not refused.  CREATE SCHEMA is written with IF NOT
    EXISTS or what does the same. *)
Definition run (s : statement) (x : ldb) : option ldb :=
  match s with
  | CreateSchema n => if none n then None else Some (if bmem n (l_schemas x) then x else LDb (l_schemas x ++ [n]) (l_tables x))
  | CreateTable p cs ks => let? q := whereabouts p in add_table q cs ks x
  | CreateIndex i => let? p := xd_table i in let? q := whereabouts p in add_index q i x
  | AlterTable p (AAddConstraint k nv) => let? q := whereabouts p in add_constraint q k nv x
  | _ => None
  end.
Definition load_file (s : bytes) (x : ldb) : option ldb := let? l := read_file d s in each_in run l (Some x).
(** One file after the other, load_cmd.go:350-480. *)
Definition load_files (l : list bytes) (x : ldb) : option ldb := each_in load_file l (Some x).
End Loading.

(** ** What the catalog says *)
Definition catalog_tables (cat : catalog) : list (bytes * table) := flat_map (fun s => map (pair (sc_name s)) (sc_tables s)) (ct_schemas cat).
Definition no_refs : column -> reference := fun _ => no_reference.
Definition same_table (d : dialect) (cat : catalog) (e : bytes * table) (t : ltable) : Prop :=
  let cur := ct_current cat in
  let coll := ct_collation cat in
  lt_place t = (fst e, tb_name (snd e))
  /\ lt_columns t = map (column_meant d coll false no_reference) (tb_columns (snd e))
  /\ Permutation (lt_constraints t) (map (fun c => (constraint_meant d cur c, con_notvalid c)) (tb_constraints (snd e)))
  /\ Permutation (lt_indexes t) (map (fun i => index_meant d (Some (qualify cur (fst e) (tb_name (snd e)))) false i) (tb_indexes (snd e))).
(** The database has the schemas and tables of the catalog and no other tables. *)
Definition same_database (d : dialect) (cat : catalog) (x : ldb) : Prop :=
  (forall s, In s (ct_schemas cat) -> In (sc_name s) (l_schemas x)) /\ Forall2 (same_table d cat) (catalog_tables cat) (l_tables x).

(** ** Catalogs of existing databases *)
Definition type_has_index (ty : bytes) : bool := bmem ty [PRIMARY_KEY; UNIQUE; EXCLUDE].
Definition catalog_names (d : dialect) (cat : catalog) : list entry :=
  flat_map (fun e : bytes * table => let q := (fst e, tb_name (snd e)) in
    table_entry d q :: flat_map (fun c => constraint_entries d q (type_has_index (con_type c)) (con_name c)) (tb_constraints (snd e))
    ++ map (fun i => index_entry d q (ix_name i)) (tb_indexes (snd e))) (catalog_tables cat).
Definition among (t : table) (l : list bytes) : Prop := forall n, In n l -> In n (map col_name (tb_columns t)).
(** Something with an index that begins with the column. *)
Definition begins_key (t : table) (n : bytes) : Prop :=
  (exists k l, In k (tb_constraints t) /\ unique_key k /\ con_columns k = n :: l) \/ exists i l, In i (tb_indexes t) /\ ix_columns i = n :: l.
(** The columns that a foreign key refers to. *)
Definition refers_to_unique (t : table) (l : list bytes) : Prop :=
  (exists k, In k (tb_constraints t) /\ unique_key k /\ same_set (con_columns k) l)
  \/ exists i, In i (tb_indexes t) /\ ix_unique i = true /\ ix_predicate i = [] /\ same_set (ix_columns i) l
       /\ forall n, In n (ix_columns i) -> is_expression n = false.
(** The catalog is that of a database: names are different, keys and indexes are those of columns
    of the table, and foreign keys refer to keys.  Names and expressions can be written,
    see SpecDdlText.v.  Nothing is left out of the dump. *)
Record existing_table (d : dialect) (cat : catalog) (s : bytes) (t : table) : Prop := {
  et_plain : tb_sql t = [] /\ tb_virtual t = false /\ plain_name d (tb_name t);
  et_columns : tb_columns t <> [] /\ NoDup (map col_name (tb_columns t));
  et_column : forall c, In c (tb_columns t) ->
    col_ignore c = false /\ (col_generated c = true -> col_expr c <> [])
    /\ writable_column d (ct_collation cat) false no_reference c
    /\ (d = MySQL -> col_autoincrement c = true ->
          (forall c', In c' (tb_columns t) -> col_autoincrement c' = true -> c' = c) /\ begins_key t (col_name c));
  et_constraint : forall c, In c (tb_constraints t) ->
    con_ignore c = false /\ (con_schema c, con_table c) = (s, tb_name t) /\ con_name c <> []
    /\ writable_constraint d (ct_current cat) c /\ (d = MySQL -> primary c -> con_name c = B"PRIMARY")
    /\ (unique_key c \/ foreign c -> among t (con_columns c));
  et_primary : forall a b, In a (tb_constraints t) -> In b (tb_constraints t) -> primary a -> primary b -> a = b;
  et_index : forall i, In i (tb_indexes t) ->
    (ix_schema i, ix_table i) = (s, tb_name t) /\ writable_index d i
    /\ (forall n, In n (ix_columns i) -> is_expression n = true \/ In n (map col_name (tb_columns t))) /\ among t (ix_include i)
}.
Record existing (d : dialect) (cat : catalog) : Prop := {
  ex_tables : unique_tables (ct_schemas cat);
  ex_schemas : forall s, In s (ct_schemas cat) -> sc_name s <> [] /\ plain_name d (sc_name s)
    /\ (d = SQLServer -> ~ exists a b, sc_name s = a ++ squote :: squote :: b);
  ex_names : NoDup (catalog_names d cat);
  ex_table : forall s t, In (s, t) (catalog_tables cat) -> existing_table d cat s t;
  ex_targets : forall s t c, In (s, t) (catalog_tables cat) -> In c (tb_constraints t) -> foreign c ->
    exists s' u, In (s', u) (catalog_tables cat) /\ target (ct_current cat) c = (s', tb_name u)
      /\ among u (con_refcolumns c) /\ refers_to_unique u (con_refcolumns c)
}.

(** ** Catalogs to which the claim is restricted *)
Definition one_line (s : bytes) : Prop := ~ In LF s /\ ~ In CR s.
Record regular (d : dialect) (cat : catalog) : Prop := {
  (** Foreign keys refer to tables of the same schema or of an earlier one, except in MySQL. *)
  rg_order : d = MySQL \/ forall l1 s l2 t c, ct_schemas cat = l1 ++ s :: l2 -> In t (sc_tables s) -> In c (tb_constraints t) -> foreign c ->
    In (fst (target (ct_current cat) c)) (map sc_name (l1 ++ [s]));
  (** No column takes its numbers from a sequence. *)
  rg_sequence : d = Postgres -> forall s t c, In (s, t) (catalog_tables cat) -> In c (tb_columns t) -> uses_sequence (text d (col_default c)) = false;
  (** AUTO_INCREMENT is for the first column of the primary key. *)
  rg_auto : d = MySQL -> forall s t c, In (s, t) (catalog_tables cat) -> In c (tb_columns t) -> col_autoincrement c = true ->
    exists k l, In k (tb_constraints t) /\ primary k /\ con_columns k = col_name c :: l;
  (** All constraints are valid. *)
  rg_valid : forall s t c, In (s, t) (catalog_tables cat) -> In c (tb_constraints t) -> con_notvalid c = false;
  (** Names of tables and schemas do not go over several lines. *)
  rg_lines : forall s t, In (s, t) (catalog_tables cat) -> one_line s /\ one_line (tb_name t)
}.
