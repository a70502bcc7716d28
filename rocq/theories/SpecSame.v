(** Which catalogs can be told by table structs, and what it means that a catalog read from
    table structs is the one they were written for. *)
From Verif Require Import GoStr ModelCatalog ModelDdl ModelModifier SpecModifier ModelDiff ModelDiffSql ModelStructs SpecStructs.

(** A schema without a name is the current one. *)
Definition place_of (cur s : bytes) : bytes := match s with [] => cur | _ => s end.
Definition key_type (ty : bytes) : Prop := ty = PRIMARY_KEY \/ ty = UNIQUE \/ ty = FOREIGN_KEY.
Definition a_live_key (t : table) (c : constraint) : Prop :=
  In c (tb_constraints t) /\ con_ignore c = false /\ key_type (con_type c).
Definition a_live_column (t : table) (c : column) : Prop := In c (tb_columns t) /\ col_ignore c = false.
Definition a_live_index (t : table) (x : index) : Prop := In x (tb_indexes t) /\ ix_ignore x = false.

(** The names that keys and indexes get: those that are generated for them, and PRIMARY on MySQL. *)
Definition key_kind (ty : bytes) : name_kind :=
  if beqb ty PRIMARY_KEY then PKey else if beqb ty UNIQUE then UniqueKey else FKey.
Definition key_name (d : dialect) (t : table) (c : constraint) : bytes :=
  if dialect_eqb d MySQL && beqb (con_type c) PRIMARY_KEY then B"PRIMARY"
  else generate_name (key_kind (con_type c)) (tb_name t) (con_columns c).
Definition index_name (t : table) (x : index) : bytes := generate_name IndexKind (tb_name t) (ix_columns x).

(** ** The same catalog *)
(** The type of a column is its domain if it has one. *)
Definition type_of (c : column) : bytes := match col_domain c with [] => col_type c | dm => dm end.
Record same_column (collation : bytes) (c c' : column) : Prop := SameColumn {
  sm_name : col_name c' = col_name c;
  sm_type : col_type c' = type_of c;
  sm_notnull : col_notnull c' = col_notnull c;
  sm_default : col_default c' = col_default c;
  sm_auto : col_autoincrement c' = col_autoincrement c;
  sm_identity : col_identity c' = col_identity c;
  sm_onupdate : col_onupdate c' = col_onupdate c;
  sm_generated : col_generated c' = true <-> col_generated c = true \/ col_expr c <> [];
  sm_collation : col_collation c' = col_collation c \/ col_collation c = collation /\ col_collation c' = [];
  sm_ignore : col_ignore c' = false
}.
(** No rule is the rule NO ACTION. *)
Definition same_rule (a b : bytes) : Prop := a = b \/ (a = [] \/ a = NO_ACTION) /\ (b = [] \/ b = NO_ACTION).
Record same_key (d : dialect) (cur : bytes) (t : table) (c c' : constraint) : Prop := SameKey {
  sk_name : con_name c' = key_name d t c;
  sk_type : con_type c' = con_type c;
  sk_columns : con_columns c' = con_columns c;
  sk_defer : con_deferrable c' = con_deferrable c /\ con_deferred c' = con_deferred c;
  sk_refer : con_type c = FOREIGN_KEY ->
    place_of cur (con_refschema c') = place_of cur (con_refschema c) /\ con_reftable c' = con_reftable c
    /\ con_refcolumns c' = con_refcolumns c /\ same_rule (con_update c) (con_update c')
    /\ same_rule (con_delete c) (con_delete c') /\ con_match c' = con_match c;
  sk_ignore : con_ignore c' = false
}.
(** No type is the type BTREE. *)
Record same_index (t : table) (x x' : index) : Prop := SameIndex {
  si_name : ix_name x' = index_name t x;
  si_columns : ix_columns x' = ix_columns x;
  si_unique : ix_unique x' = ix_unique x;
  si_type : ix_type x' = ix_type x \/ ix_type x' = [] /\ equal_fold (ix_type x) (B"BTREE") = true;
  si_ignore : ix_ignore x' = false
}.
Record same_table (d : dialect) (cur collation : bytes) (t t' : table) : Prop := SameTable {
  st_schema : tb_schema t' = place_of cur (tb_schema t);
  st_name : tb_name t' = tb_name t;
  st_columns : Forall2 (same_column collation) (filter (fun c => negb (col_ignore c)) (tb_columns t)) (tb_columns t');
  st_keys : forall c, a_live_key t c -> exists c', In c' (tb_constraints t') /\ same_key d cur t c c';
  st_keys_back : forall c', In c' (tb_constraints t') -> exists c, a_live_key t c /\ same_key d cur t c c';
  st_key_names : NoDup (map con_name (tb_constraints t'));
  st_indexes : forall x, a_live_index t x -> exists x', In x' (tb_indexes t') /\ same_index t x x';
  st_indexes_back : forall x', In x' (tb_indexes t') -> exists x, a_live_index t x /\ same_index t x x';
  st_index_names : NoDup (map ix_name (tb_indexes t'));
  st_virtual : d = SQLite -> tb_virtual t' = is_virtual t;
  st_ignore : tb_ignore t' = false
}.
Definition tables_in (l : list schema) : list table := flat_map sc_tables l.
Definition same_catalog (cat : catalog) (l : list schema) : Prop :=
  let same := same_table (ct_dialect cat) (ct_current cat) (ct_collation cat) in
  (forall t, In t (tables_in (ct_schemas cat)) -> exists t', In t' (tables_in l) /\ same t t')
  /\ (forall t', In t' (tables_in l) -> exists t, In t (tables_in (ct_schemas cat)) /\ same t t')
  /\ NoDup (map (fun t => (tb_schema t, tb_name t)) (tables_in l))
  /\ (forall s t, In s l -> In t (sc_tables s) -> tb_schema t = sc_name s).

(** ** Catalogs that table structs can tell *)
Definition bracketed (v : bytes) : Prop := exists e, v = B"(" ++ e ++ B")".
(** Default values: on Postgres not in brackets; elsewhere a literal, or an expression in one
    pair of brackets. *)
Definition default_fits (flt : bytes -> bool) (d : dialect) (v : bytes) : Prop :=
  v = []
  \/ ~ In backtick v
     /\ match d with
        | Postgres => ~ bracketed v
        | _ =>
            ~ bracketed v /\ is_literal flt v = true
            /\ (d = SQLServer -> equal_fold v (B"TRUE") = false /\ equal_fold v (B"FALSE") = false)
            \/ exists e, v = B"(" ++ e ++ B")" /\ e <> [] /\ ~ bracketed e /\ is_literal flt e = false
        end.
(** Types: they can be normalised; outside of SQLite and Postgres a type that may have a
    length has one; TIMESTAMP is known to Postgres and SQL Server only. *)
Definition may_have_length (n : bytes) : Prop :=
  In n (map B ["VARBINARY"; "BINARY"; "NVARCHAR"; "VARCHAR"; "CHAR"]%string).
Definition type_fits (d : dialect) (c : column) : Prop :=
  (exists n a1 a2, normalize_column_type d (type_of c) = Ok (n, a1, a2)
     /\ (d = SQLite \/ d = Postgres \/ (may_have_length n -> a1 <> [])))
  /\ (d = Postgres \/ d = SQLServer \/ type_of c <> B"TIMESTAMP")
  /\ (col_enum c = true -> d <> SQLite /\ col_type c <> []).
Definition sole_key (t : table) (n : bytes) : Prop :=
  exists k, a_live_key t k /\ con_type k = PRIMARY_KEY /\ con_columns k = [n].
Definition in_primary_key (t : table) (n : bytes) : Prop :=
  exists k, a_live_key t k /\ con_type k = PRIMARY_KEY /\ In n (con_columns k).
Definition column_fits (flt : bytes -> bool) (d : dialect) (t : table) (c : column) : Prop :=
  column_ok c /\ col_name c <> B"_" /\ col_name c <> B" "
  /\ type_fits d c /\ default_fits flt d (col_default c)
  (* the primary key of a SQLite table has the type INTEGER, not INT *)
  /\ (d = SQLite -> sole_key t (col_name c) -> col_domain c = [] ->
      col_type c <> B"INT" /\ (equal_fold (col_type c) (B"INTEGER") = true -> col_type c = B"INTEGER"))
  (* columns of a primary key are not null, unless it is a row id *)
  /\ (in_primary_key t (col_name c) ->
      col_notnull c = true \/ d = SQLite /\ sole_key t (col_name c) /\ type_of c = B"INTEGER")
  /\ (col_autoincrement c = true -> d = MySQL \/ d = SQLite /\ type_of c = B"INTEGER")
  /\ (col_identity c = [] \/ d = Postgres /\ (col_identity c = DEFAULT_IDENTITY \/ col_identity c = ALWAYS_IDENTITY)
      \/ d = SQLServer /\ col_identity c = IDENTITY)
  /\ (col_onupdate c = true -> d = MySQL).
Definition live_names (t : table) : list bytes := map col_name (filter (fun c => negb (col_ignore c)) (tb_columns t)).
Definition rule_fits (d : dialect) (r : bytes) : Prop :=
  In r [[]; NO_ACTION; CASCADE; RESTRICT; SET_NULL; SET_DEFAULT] /\ (d = SQLServer -> r <> RESTRICT).
Definition key_fits (cat : catalog) (t : table) (c : constraint) : Prop :=
  let d := ct_dialect cat in
  con_columns c <> [] /\ incl (con_columns c) (live_names t)
  /\ (con_deferrable c = true -> d = SQLite \/ d = Postgres) /\ (con_deferred c = true -> con_deferrable c = true)
  /\ (con_type c = FOREIGN_KEY ->
      (exists u, In u (tables_in (ct_schemas cat))
         /\ place_of (ct_current cat) (tb_schema u) = place_of (ct_current cat) (con_refschema c)
         /\ tb_name u = con_reftable c /\ incl (con_refcolumns c) (live_names u))
      /\ List.length (con_refcolumns c) = List.length (con_columns c)
      (* a reference into another schema names the columns *)
      /\ (con_refschema c = [] \/ con_refschema c = ct_current cat \/ con_refcolumns c <> con_columns c)
      /\ ~ In "."%char (con_refschema c) /\ quiet (con_refschema c)
      /\ rule_fits d (con_update c) /\ rule_fits d (con_delete c) /\ con_match c = []).
Definition index_fits (d : dialect) (t : table) (x : index) : Prop :=
  is_simple_index x = true /\ incl (ix_columns x) (live_names t) /\ value_ok (ix_type x)
  /\ (ix_type x = [] \/ equal_fold (ix_type x) (B"BTREE") = true \/ d = Postgres \/ d = MySQL).
Definition live_keys_of (t : table) : list constraint :=
  filter (fun c => negb (con_ignore c) && bmem (con_type c) [PRIMARY_KEY; UNIQUE; FOREIGN_KEY]) (tb_constraints t).
Definition live_indexes_of (t : table) : list index := filter (fun x => negb (ix_ignore x)) (tb_indexes t).
Record table_fits (flt : bytes -> bool) (cat : catalog) (t : table) : Prop := TableFits {
  tf_name : go_word (tb_name t);
  tf_schema : ~ In backtick (tb_schema t) /\ ~ In "."%char (tb_schema t);
  tf_some : exists c, a_live_column t c;
  tf_columns : forall c, a_live_column t c -> column_fits flt (ct_dialect cat) t c;
  tf_column_names : NoDup (live_names t);
  tf_keys : forall c, a_live_key t c -> key_fits cat t c;
  tf_key_names : NoDup (map (key_name (ct_dialect cat) t) (live_keys_of t));
  tf_one_primary : forall c c', a_live_key t c -> a_live_key t c' -> con_type c = PRIMARY_KEY -> con_type c' = PRIMARY_KEY -> c = c';
  tf_indexes : forall x, a_live_index t x -> index_fits (ct_dialect cat) t x;
  tf_index_names : NoDup (map (index_name t) (live_indexes_of t));
  (* the mark of a virtual table stands where a primary key of several columns would stand *)
  tf_virtual : ct_dialect cat = SQLite -> is_virtual t = true ->
    forall c, a_live_key t c -> con_type c = PRIMARY_KEY -> exists n, con_columns c = [n]
}.
(** What every catalog of a database fulfils. *)
Record coherent_table (cat : catalog) (t : table) : Prop := CoherentTable {
  ch_some : exists c, a_live_column t c;
  ch_column_names : NoDup (live_names t);
  ch_keys : forall c, a_live_key t c -> con_columns c <> [] /\ incl (con_columns c) (live_names t)
    /\ (con_type c = FOREIGN_KEY ->
        (exists u, In u (tables_in (ct_schemas cat))
           /\ place_of (ct_current cat) (tb_schema u) = place_of (ct_current cat) (con_refschema c)
           /\ tb_name u = con_reftable c /\ incl (con_refcolumns c) (live_names u))
        /\ List.length (con_refcolumns c) = List.length (con_columns c));
  ch_one_primary : forall c c', a_live_key t c -> a_live_key t c' -> con_type c = PRIMARY_KEY -> con_type c' = PRIMARY_KEY -> c = c'
}.
Definition coherent (cat : catalog) : Prop :=
  (forall t, In t (tables_in (ct_schemas cat)) -> coherent_table cat t)
  /\ NoDup (map (fun t => (place_of (ct_current cat) (tb_schema t), tb_name t)) (tables_in (ct_schemas cat))).
Definition expressible (flt : bytes -> bool) (cat : catalog) : Prop :=
  (forall t, In t (tables_in (ct_schemas cat)) -> table_fits flt cat t)
  /\ NoDup (map (fun t => (place_of (ct_current cat) (tb_schema t), tb_name t)) (tables_in (ct_schemas cat))).
