(** Model of ddl/struct_parser.go: the catalog described by table structs.  The syntax tree
    of a Go file is given; positions and the wording of messages are left out.  Lower-casing
    is that of ASCII.  A second call of WriteCatalog on the same structs is not modelled:
    the code keeps the dialects of modifiers that it has filled in. *)
From Verif Require Import GoStr ModelCatalog ModelCache ModelDdl ModelModifier ModelDiff ModelDiffSql ModelGoTag ModelStructs.

(** ** Visiting the syntax tree *)
(** The parts of go/ast that are looked at: the type of a field and its tag, which is the
    text of a string literal. *)
Inductive go_type := Selector (x sel : bytes) | Ident (n : bytes) | EmptyStruct | OtherType.
Record go_field := GoField { gf_names : list bytes; gf_type : go_type; gf_tag : option bytes }.
Record go_struct := GoStruct { gs_name : bytes; gs_fields : list go_field }.

(** What is reported, struct_parser.go:858-861. *)
Inductive complaint :=
| BadTag (tag : bytes) | NotMarked (name : bytes) | BadModifier (raw : bytes) | UnknownModifier (name : bytes)
| NoColumn | NoReference | UnknownValue (v : bytes) | BlankDialect
| NoSuchColumn (t c : bytes) | NoSuchSchema (s : bytes) | NoSuchTable (s t : bytes).

(** The type of a field, struct_parser.go:80-90. *)
Definition type_name (t : go_type) : bytes :=
  match t with
  | Selector x sel => x ++ B"." ++ sel
  | Ident n => n
  | EmptyStruct => B"struct{}"
  | OtherType => []
  end.

(** The tag of a field, struct_parser.go:92-107: its name, its modifiers, and whether they
    could be read. *)
Definition read_tag (tag : option bytes) : bytes * result (list modifier) :=
  match tag with
  | None => ([], Ok [])
  | Some lit =>
      match go_unquote lit with
      | None => ([], Ok [])
      | Some s =>
          (tag_get (B"sq") s,
           match new_modifiers (tag_get (B"ddl") s) with Some r => r | None => Panic end)
      end
  end.

(** One field, struct_parser.go:73-108. *)
Definition visit_field (f : go_field) : result (option field * list complaint) :=
  let name := hd [] (gf_names f) in
  let '(tag, mods) := read_tag (gf_tag f) in
  match mods with
  | Ok ms => Ok (Some (Field name (type_name (gf_type f)) tag ms), [])
  | Err => Ok (None, [BadTag name])
  | Panic => Panic
  end.
Fixpoint visit_fields (l : list go_field) : result (list field * list complaint) :=
  match l with
  | [] => Ok ([], [])
  | f :: l' =>
      bindr (visit_field f) (fun '(o, cs) =>
      bindr (visit_fields l') (fun '(fs, cs') => Ok (opt_list o ++ fs, cs ++ cs')))
  end.

(** VisitStruct, struct_parser.go:56-130.  A struct whose first field is not
    sq.TableStruct is left alone. *)
Definition visit_struct (s : go_struct) : result (list table_struct * list complaint) :=
  match gs_fields s with
  | [] => Ok ([], [])
  | f :: fs =>
      bindr (visit_field f) (fun '(o, cs) =>
      match o with
      | Some first =>
          if negb (is_empty (f_name first)) || negb (beqb (f_type first) (B"sq.TableStruct")) then
            Ok ([], if forallb is_upper (gs_name s) && negb (beqb (f_type first) (B"sq.TableStruct"))
                    then [NotMarked (gs_name s)] else [])
          else bindr (visit_fields fs) (fun '(fields, cs') =>
                 Ok ([TableStruct (gs_name s) (first :: fields)], cs'))
      | None =>
          bindr (visit_fields fs) (fun '(fields, cs') => Ok ([TableStruct (gs_name s) fields], cs ++ cs'))
      end)
  end.
(** ParseFile, struct_parser.go:134-145, once the file is parsed. *)
Fixpoint visit_structs (l : list go_struct) : result (list table_struct * list complaint) :=
  match l with
  | [] => Ok ([], [])
  | s :: l' =>
      bindr (visit_struct s) (fun '(ts, cs) =>
      bindr (visit_structs l') (fun '(ts', cs') => Ok (ts ++ ts', cs ++ cs')))
  end.

(** ** Assignments to the fields of objects *)
Definition with_type (v : bytes) (c : column) : column :=
  Column (col_schema c) (col_table c) (col_name c) v (col_length c) (col_precision c) (col_scale c)
    (col_domain c) (col_enum c) (col_notnull c) (col_pkey c) (col_unique c) (col_autoincrement c)
    (col_identity c) (col_default c) (col_onupdate c) (col_generated c) (col_expr c) (col_stored c)
    (col_collation c) (col_ignore c).
Definition with_length (v : bytes) (c : column) : column :=
  Column (col_schema c) (col_table c) (col_name c) (col_type c) v (col_precision c) (col_scale c)
    (col_domain c) (col_enum c) (col_notnull c) (col_pkey c) (col_unique c) (col_autoincrement c)
    (col_identity c) (col_default c) (col_onupdate c) (col_generated c) (col_expr c) (col_stored c)
    (col_collation c) (col_ignore c).
Definition with_precision (v : bytes) (c : column) : column :=
  Column (col_schema c) (col_table c) (col_name c) (col_type c) (col_length c) v (col_scale c) (col_domain c)
    (col_enum c) (col_notnull c) (col_pkey c) (col_unique c) (col_autoincrement c) (col_identity c)
    (col_default c) (col_onupdate c) (col_generated c) (col_expr c) (col_stored c) (col_collation c)
    (col_ignore c).
Definition with_scale (v : bytes) (c : column) : column :=
  Column (col_schema c) (col_table c) (col_name c) (col_type c) (col_length c) (col_precision c) v
    (col_domain c) (col_enum c) (col_notnull c) (col_pkey c) (col_unique c) (col_autoincrement c)
    (col_identity c) (col_default c) (col_onupdate c) (col_generated c) (col_expr c) (col_stored c)
    (col_collation c) (col_ignore c).
Definition with_enum (v : bool) (c : column) : column :=
  Column (col_schema c) (col_table c) (col_name c) (col_type c) (col_length c) (col_precision c) (col_scale c)
    (col_domain c) v (col_notnull c) (col_pkey c) (col_unique c) (col_autoincrement c) (col_identity c)
    (col_default c) (col_onupdate c) (col_generated c) (col_expr c) (col_stored c) (col_collation c)
    (col_ignore c).
Definition with_notnull (v : bool) (c : column) : column :=
  Column (col_schema c) (col_table c) (col_name c) (col_type c) (col_length c) (col_precision c) (col_scale c)
    (col_domain c) (col_enum c) v (col_pkey c) (col_unique c) (col_autoincrement c) (col_identity c)
    (col_default c) (col_onupdate c) (col_generated c) (col_expr c) (col_stored c) (col_collation c)
    (col_ignore c).
Definition with_pkey (v : bool) (c : column) : column :=
  Column (col_schema c) (col_table c) (col_name c) (col_type c) (col_length c) (col_precision c) (col_scale c)
    (col_domain c) (col_enum c) (col_notnull c) v (col_unique c) (col_autoincrement c) (col_identity c)
    (col_default c) (col_onupdate c) (col_generated c) (col_expr c) (col_stored c) (col_collation c)
    (col_ignore c).
Definition with_unique (v : bool) (c : column) : column :=
  Column (col_schema c) (col_table c) (col_name c) (col_type c) (col_length c) (col_precision c) (col_scale c)
    (col_domain c) (col_enum c) (col_notnull c) (col_pkey c) v (col_autoincrement c) (col_identity c)
    (col_default c) (col_onupdate c) (col_generated c) (col_expr c) (col_stored c) (col_collation c)
    (col_ignore c).
Definition with_autoincrement (v : bool) (c : column) : column :=
  Column (col_schema c) (col_table c) (col_name c) (col_type c) (col_length c) (col_precision c) (col_scale c)
    (col_domain c) (col_enum c) (col_notnull c) (col_pkey c) (col_unique c) v (col_identity c) (col_default c)
    (col_onupdate c) (col_generated c) (col_expr c) (col_stored c) (col_collation c) (col_ignore c).
Definition with_identity (v : bytes) (c : column) : column :=
  Column (col_schema c) (col_table c) (col_name c) (col_type c) (col_length c) (col_precision c) (col_scale c)
    (col_domain c) (col_enum c) (col_notnull c) (col_pkey c) (col_unique c) (col_autoincrement c) v
    (col_default c) (col_onupdate c) (col_generated c) (col_expr c) (col_stored c) (col_collation c)
    (col_ignore c).
Definition with_default (v : bytes) (c : column) : column :=
  Column (col_schema c) (col_table c) (col_name c) (col_type c) (col_length c) (col_precision c) (col_scale c)
    (col_domain c) (col_enum c) (col_notnull c) (col_pkey c) (col_unique c) (col_autoincrement c)
    (col_identity c) v (col_onupdate c) (col_generated c) (col_expr c) (col_stored c) (col_collation c)
    (col_ignore c).
Definition with_onupdate (v : bool) (c : column) : column :=
  Column (col_schema c) (col_table c) (col_name c) (col_type c) (col_length c) (col_precision c) (col_scale c)
    (col_domain c) (col_enum c) (col_notnull c) (col_pkey c) (col_unique c) (col_autoincrement c)
    (col_identity c) (col_default c) v (col_generated c) (col_expr c) (col_stored c) (col_collation c)
    (col_ignore c).
Definition with_generated (v : bool) (c : column) : column :=
  Column (col_schema c) (col_table c) (col_name c) (col_type c) (col_length c) (col_precision c) (col_scale c)
    (col_domain c) (col_enum c) (col_notnull c) (col_pkey c) (col_unique c) (col_autoincrement c)
    (col_identity c) (col_default c) (col_onupdate c) v (col_expr c) (col_stored c) (col_collation c)
    (col_ignore c).
Definition with_collation (v : bytes) (c : column) : column :=
  Column (col_schema c) (col_table c) (col_name c) (col_type c) (col_length c) (col_precision c) (col_scale c)
    (col_domain c) (col_enum c) (col_notnull c) (col_pkey c) (col_unique c) (col_autoincrement c)
    (col_identity c) (col_default c) (col_onupdate c) (col_generated c) (col_expr c) (col_stored c) v
    (col_ignore c).
Definition with_col_ignore (v : bool) (c : column) : column :=
  Column (col_schema c) (col_table c) (col_name c) (col_type c) (col_length c) (col_precision c) (col_scale c)
    (col_domain c) (col_enum c) (col_notnull c) (col_pkey c) (col_unique c) (col_autoincrement c)
    (col_identity c) (col_default c) (col_onupdate c) (col_generated c) (col_expr c) (col_stored c)
    (col_collation c) v.
Definition with_refschema (v : bytes) (c : constraint) : constraint :=
  Constraint (con_schema c) (con_table c) (con_name c) (con_type c) (con_columns c) v (con_reftable c)
    (con_refcolumns c) (con_update c) (con_delete c) (con_match c) (con_check c) (con_operators c)
    (con_indextype c) (con_predicate c) (con_deferrable c) (con_deferred c) (con_clustered c) (con_notvalid c)
    (con_ignore c).
Definition with_reftable (v : bytes) (c : constraint) : constraint :=
  Constraint (con_schema c) (con_table c) (con_name c) (con_type c) (con_columns c) (con_refschema c) v
    (con_refcolumns c) (con_update c) (con_delete c) (con_match c) (con_check c) (con_operators c)
    (con_indextype c) (con_predicate c) (con_deferrable c) (con_deferred c) (con_clustered c) (con_notvalid c)
    (con_ignore c).
Definition with_refcolumns (v : list bytes) (c : constraint) : constraint :=
  Constraint (con_schema c) (con_table c) (con_name c) (con_type c) (con_columns c) (con_refschema c)
    (con_reftable c) v (con_update c) (con_delete c) (con_match c) (con_check c) (con_operators c)
    (con_indextype c) (con_predicate c) (con_deferrable c) (con_deferred c) (con_clustered c) (con_notvalid c)
    (con_ignore c).
Definition with_update (v : bytes) (c : constraint) : constraint :=
  Constraint (con_schema c) (con_table c) (con_name c) (con_type c) (con_columns c) (con_refschema c)
    (con_reftable c) (con_refcolumns c) v (con_delete c) (con_match c) (con_check c) (con_operators c)
    (con_indextype c) (con_predicate c) (con_deferrable c) (con_deferred c) (con_clustered c) (con_notvalid c)
    (con_ignore c).
Definition with_delete (v : bytes) (c : constraint) : constraint :=
  Constraint (con_schema c) (con_table c) (con_name c) (con_type c) (con_columns c) (con_refschema c)
    (con_reftable c) (con_refcolumns c) (con_update c) v (con_match c) (con_check c) (con_operators c)
    (con_indextype c) (con_predicate c) (con_deferrable c) (con_deferred c) (con_clustered c) (con_notvalid c)
    (con_ignore c).
Definition with_deferrable (v : bool) (c : constraint) : constraint :=
  Constraint (con_schema c) (con_table c) (con_name c) (con_type c) (con_columns c) (con_refschema c)
    (con_reftable c) (con_refcolumns c) (con_update c) (con_delete c) (con_match c) (con_check c)
    (con_operators c) (con_indextype c) (con_predicate c) v (con_deferred c) (con_clustered c)
    (con_notvalid c) (con_ignore c).
Definition with_deferred (v : bool) (c : constraint) : constraint :=
  Constraint (con_schema c) (con_table c) (con_name c) (con_type c) (con_columns c) (con_refschema c)
    (con_reftable c) (con_refcolumns c) (con_update c) (con_delete c) (con_match c) (con_check c)
    (con_operators c) (con_indextype c) (con_predicate c) (con_deferrable c) v (con_clustered c)
    (con_notvalid c) (con_ignore c).
Definition with_con_ignore (v : bool) (c : constraint) : constraint :=
  Constraint (con_schema c) (con_table c) (con_name c) (con_type c) (con_columns c) (con_refschema c)
    (con_reftable c) (con_refcolumns c) (con_update c) (con_delete c) (con_match c) (con_check c)
    (con_operators c) (con_indextype c) (con_predicate c) (con_deferrable c) (con_deferred c)
    (con_clustered c) (con_notvalid c) v.
Definition with_ix_type (v : bytes) (x : index) : index :=
  Index (ix_schema x) (ix_table x) (ix_name x) v (ix_unique x) (ix_columns x) (ix_include x) (ix_descending x)
    (ix_opclasses x) (ix_predicate x) (ix_sql x) (ix_ignore x).
Definition with_ix_unique (v : bool) (x : index) : index :=
  Index (ix_schema x) (ix_table x) (ix_name x) (ix_type x) v (ix_columns x) (ix_include x) (ix_descending x)
    (ix_opclasses x) (ix_predicate x) (ix_sql x) (ix_ignore x).
Definition with_ix_ignore (v : bool) (x : index) : index :=
  Index (ix_schema x) (ix_table x) (ix_name x) (ix_type x) (ix_unique x) (ix_columns x) (ix_include x)
    (ix_descending x) (ix_opclasses x) (ix_predicate x) (ix_sql x) v.

(** ** The parser *)
(** The parser while it fills a table, struct_parser.go:21-28: the cache, the table, the keys
    of the maps locations and columnExplicitType, and the reports. *)
Record parser := Parser {
  pa_cache : cache; pa_table : table; pa_locations : list key; pa_explicit : list key;
  pa_reports : list complaint
}.
Definition kmem (k : key) (l : list key) : bool := existsb (keqb k) l.
Definition report (c : complaint) (p : parser) : parser :=
  Parser (pa_cache p) (pa_table p) (pa_locations p) (pa_explicit p) (pa_reports p ++ [c]).
Definition locate (name : bytes) (p : parser) : parser :=
  Parser (pa_cache p) (pa_table p) ([tb_schema (pa_table p); name] :: pa_locations p) (pa_explicit p) (pa_reports p).
Definition with_table (t : table) (c : cache) (p : parser) : parser :=
  Parser c t (pa_locations p) (pa_explicit p) (pa_reports p).
(** An assignment through a pointer to a column, constraint or index of the table. *)
Definition change_nth {A} (i : nat) (f : A -> A) (l : list A) : list A :=
  match nth_error l i with Some a => set_nth i (f a) l | None => l end.
Definition on_columns (i : nat) (f : column -> column) (p : parser) : parser :=
  let t := pa_table p in with_table (with_columns t (change_nth i f (tb_columns t))) (pa_cache p) p.
Definition on_constraints (i : nat) (f : constraint -> constraint) (p : parser) : parser :=
  let t := pa_table p in with_table (with_constraints t (change_nth i f (tb_constraints t))) (pa_cache p) p.
Definition on_indexes (i : nat) (f : index -> index) (p : parser) : parser :=
  let t := pa_table p in with_table (with_indexes t (change_nth i f (tb_indexes t))) (pa_cache p) p.

(** The names of the dialects, ddl.go:39-45. *)
Definition dialect_name (d : dialect) : bytes :=
  match d with
  | SQLite => B"sqlite" | Postgres => B"postgres" | MySQL => B"mysql" | SQLServer => B"sqlserver" | Other => []
  end.
Definition excluded (d : dialect) (m : modifier) : bool := excludes_dialect m (dialect_name d).
Definition parsed_value (m : modifier) : result modifier :=
  match parse_raw_value m with Some r => r | None => Panic end.
Definition own_value (v : bytes) : bool := negb (is_empty v) && negb (beqb v (B".")).
Definition may_defer (d : dialect) : bool := match d with SQLite | Postgres => true | _ => false end.

Fixpoint foldr {S A} (f : S -> A -> result S) (s : S) (l : list A) : result S :=
  match l with
  | [] => Ok s
  | a :: l' => bindr (f s a) (fun s => foldr f s l')
  end.

(** A submodifier of an index, struct_parser.go:419-435. *)
Definition index_sub (d : dialect) (i : nat) (p : parser) (m : modifier) : parser :=
  if excluded d m then p
  else if beqb (m_name m) (B"unique") then on_indexes i (with_ix_unique true) p
  else if beqb (m_name m) (B"using") then
    match d with Postgres | MySQL => on_indexes i (with_ix_type (m_raw m)) p | _ => p end
  else report (UnknownModifier (m_name m)) p.

(** parseIndexModifier, struct_parser.go:401-436.  The index belongs to the table, whose
    name it was given when it was created. *)
Definition parse_index (d : dialect) (columns : list bytes) (p : parser) (m : modifier) : result parser :=
  match parsed_value m with
  | Err => Ok (report (BadModifier (m_raw m)) p)
  | Panic => Panic
  | Ok m =>
      let columns := if own_value (m_value m) then split_byte ","%char (m_value m) else columns in
      let p := if none columns then report NoColumn p else p in
      let name := generate_name IndexKind (tb_name (pa_table p)) columns in
      let p := locate name p in
      bindr (get_or_create_index (pa_cache p) (pa_table p) name columns) (fun '(t, c, i) =>
      let p := on_indexes i (with_ix_ignore (excluded d m)) (with_table t c p) in
      Ok (fold_left (index_sub d i) (m_subs m) p))
  end.

(** A submodifier of a key, struct_parser.go:465-482. *)
Definition key_sub (d : dialect) (i : nat) (p : parser) (m : modifier) : parser :=
  if excluded d m then p
  else if beqb (m_name m) (B"deferrable") then
    if may_defer d then on_constraints i (with_deferrable true) p else p
  else if beqb (m_name m) (B"deferred") then
    if may_defer d then on_constraints i (fun c => with_deferred true (with_deferrable true c)) p else p
  else report (UnknownModifier (m_name m)) p.

(** parsePrimaryKeyUniqueModifier, struct_parser.go:438-484. *)
Definition parse_key (d : dialect) (columns : list bytes) (p : parser) (m : modifier) : result parser :=
  match parsed_value m with
  | Err => Ok (report (BadModifier (m_raw m)) p)
  | Panic => Panic
  | Ok m =>
      let unique := equal_fold UNIQUE (m_name m) in
      let ty := if unique then UNIQUE else PRIMARY_KEY in
      let columns := if own_value (m_value m) then split_byte ","%char (m_value m) else columns in
      let p := if none columns then report NoColumn p else p in
      let name :=
        match d, unique with
        | MySQL, false => B"PRIMARY"
        | _, _ => generate_name (if unique then UniqueKey else PKey) (tb_name (pa_table p)) columns
        end in
      let p := locate name p in
      bindr (get_or_create_constraint (pa_cache p) (pa_table p) name ty columns) (fun '(t, c, i) =>
      let p := on_constraints i (with_con_ignore (excluded d m)) (with_table t c p) in
      Ok (fold_left (key_sub d i) (m_subs m) p))
  end.

(** strings.SplitN(s, ".", 3) and what is taken from the parts, struct_parser.go:519-531 and
    609-620: the schema if there is one, the table and the columns. *)
Definition split_reference (columns : list bytes) (s : bytes) : option bytes * bytes * list bytes :=
  match cut_byte "."%char s with
  | None => (None, s, columns)
  | Some (a, rest) =>
      match cut_byte "."%char rest with
      | None => (None, a, split_byte ","%char rest)
      | Some (b, c) => (Some a, b, split_byte ","%char c)
      end
  end.
Definition set_reference (columns : list bytes) (s : bytes) (c : constraint) : constraint :=
  let '(sc, t, cols) := split_reference columns s in
  let c := with_reftable t (with_refcolumns cols c) in
  match sc with Some sc => with_refschema sc c | None => c end.

(** The rule that a value stands for, struct_parser.go:533-551. *)
Definition rule_of (d : dialect) (v : bytes) : option bytes :=
  if beqb v (B"cascade") then Some CASCADE
  else if beqb v (B"restrict") then Some (match d with SQLServer => NO_ACTION | _ => RESTRICT end)
  else if beqb v (B"noaction") then Some NO_ACTION
  else if beqb v (B"setnull") then Some SET_NULL
  else if beqb v (B"setdefault") then Some SET_DEFAULT
  else if is_empty v then Some []
  else None.

(** A submodifier of a foreign key, struct_parser.go:513-587 and 622-682.  [own]: the
    submodifier references is known. *)
Definition foreign_sub (d : dialect) (own : bool) (columns : list bytes) (i : nat) (p : parser) (m : modifier)
  : result parser :=
  if excluded d m then Ok p
  else if own && beqb (m_name m) (B"references") then
    Ok (on_constraints i (set_reference columns (m_raw m)) p)
  else if beqb (m_name m) (B"onupdate") then
    Ok (match rule_of d (m_raw m) with
        | Some r => on_constraints i (with_update r) p
        | None => report (UnknownValue (m_raw m)) p
        end)
  else if beqb (m_name m) (B"ondelete") then
    Ok (match rule_of d (m_raw m) with
        | Some r => on_constraints i (with_delete r) p
        | None => report (UnknownValue (m_raw m)) p
        end)
  else if beqb (m_name m) (B"deferrable") then
    Ok (if may_defer d then on_constraints i (with_deferrable true) p else p)
  else if beqb (m_name m) (B"deferred") then
    Ok (if may_defer d then on_constraints i (fun c => with_deferred true (with_deferrable true c)) p else p)
  else if beqb (m_name m) (B"index") then parse_index d columns p m
  else Ok (report (UnknownModifier (m_name m)) p).

(** parseForeignKeyModifier, struct_parser.go:486-588. *)
Definition parse_foreign_key (d : dialect) (p : parser) (m : modifier) : result parser :=
  match parsed_value m with
  | Err => Ok (report (BadModifier (m_raw m)) p)
  | Panic => Panic
  | Ok m =>
      if negb (own_value (m_value m)) then Ok (report NoColumn p)
      else if none (m_subs m) then Ok (report NoReference p)
      else
        let columns := split_byte ","%char (m_value m) in
        let name := generate_name FKey (tb_name (pa_table p)) columns in
        let p := locate name p in
        bindr (get_or_create_constraint (pa_cache p) (pa_table p) name FOREIGN_KEY columns) (fun '(t, c, i) =>
        let p := on_constraints i (with_con_ignore (excluded d m)) (with_table t c p) in
        foldr (foreign_sub d true columns i) p (m_subs m))
  end.

(** parseReferencesModifier, struct_parser.go:590-684. *)
Definition parse_references (d : dialect) (column : bytes) (p : parser) (m : modifier) : result parser :=
  match parsed_value m with
  | Err => Ok (report (BadModifier (m_raw m)) p)
  | Panic => Panic
  | Ok m =>
      let p := if is_empty column then report NoColumn p else p in
      let name := generate_name FKey (tb_name (pa_table p)) [column] in
      let p := locate name p in
      bindr (get_or_create_constraint (pa_cache p) (pa_table p) name FOREIGN_KEY [column]) (fun '(t, c, i) =>
      let p := on_constraints i (with_con_ignore (excluded d m)) (with_table t c p) in
      let p := on_constraints i (set_reference [column] (m_value m)) p in
      foldr (foreign_sub d false [column] i) p (m_subs m))
  end.

(** The type of a column, struct_parser.go:704-724. *)
Definition set_type (d : dialect) (ty : bytes) (c : column) : result column :=
  bindr (normalize_column_type d ty) (fun '(n, arg1, arg2) => Ok (
    if one_of n ["VARBINARY"; "BINARY"; "NVARCHAR"; "VARCHAR"; "CHAR"]%string then
      with_precision [] (with_scale []
        (if negb (is_empty arg1) then with_type ty (with_length arg1 c)
         else if negb (is_empty (col_length c)) then with_type (ty ++ B"(" ++ col_length c ++ B")") c
         else with_type ty c))
    else if one_of n ["NUMERIC"]%string then
      with_type ty (with_length []
        (with_precision (if is_empty arg1 then col_precision c else arg1)
          (with_scale (if is_empty arg2 then col_scale c else arg2) c)))
    else with_type ty (with_length [] (with_precision [] (with_scale [] c))))).

(** The length of a column, struct_parser.go:725-734. *)
Definition set_length (d : dialect) (n : bytes) (c : column) : column :=
  let c := with_length n c in
  if is_empty n then c
  else match d with
       | Postgres | MySQL => with_type (B"VARCHAR(" ++ n ++ B")") c
       | SQLServer => with_type (B"NVARCHAR(" ++ n ++ B")") c
       | _ => c
       end.

(** The default of a column, struct_parser.go:771-783; [flt] stands for strconv.ParseFloat. *)
Definition default_value (flt : bytes -> bool) (d : dialect) (v : bytes) : bytes :=
  match d with
  | Postgres => v
  | _ =>
      if negb (is_literal flt v) then wrap_brackets v
      else match d with
           | SQLServer =>
               if equal_fold v (B"TRUE") then B"1" else if equal_fold v (B"FALSE") then B"0" else v
           | _ => v
           end
  end.

(** One modifier of a column, struct_parser.go:693-812: the parser and the dialects of the
    modifiers that follow. *)
Definition column_modifier (flt : bytes -> bool) (d : dialect) (n : bytes) (i : nat)
  (s : parser * list bytes) (m : modifier) : result (parser * list bytes) :=
  let '(p, ds) := s in
  let m := if none (m_dialects m) then Mod ds (m_name m) (m_raw m) (m_value m) (m_subs m) else m in
  let set f := Ok (on_columns i f p, ds) in
  let keep := Ok (p, ds) in
  let is s := beqb (m_name m) (B s) in
  let parsed r := bindr r (fun p => Ok (p, ds)) in
  if excluded d m then keep
  else if is "type"%string then
    let t := pa_table p in
    match nth_error (tb_columns t) i with
    | None => Panic
    | Some c =>
        bindr (set_type d (m_raw m) c) (fun c =>
        Ok (on_columns i (fun _ => c)
              (Parser (pa_cache p) t (pa_locations p) ([tb_schema t; tb_name t; n] :: pa_explicit p) (pa_reports p)), ds))
    end
  else if is "len"%string then set (set_length d (m_raw m))
  else if is "auto_increment"%string then match d with MySQL => set (with_autoincrement true) | _ => keep end
  else if is "autoincrement"%string then
    match d with SQLite => set (fun c => with_autoincrement true (with_type (B"INTEGER") c)) | _ => keep end
  else if is "identity"%string then
    match d with
    | Postgres => set (with_identity DEFAULT_IDENTITY) | SQLServer => set (with_identity IDENTITY) | _ => keep
    end
  else if is "alwaysidentity"%string then
    match d with
    | Postgres => set (with_identity ALWAYS_IDENTITY) | SQLServer => set (with_identity IDENTITY) | _ => keep
    end
  else if is "notnull"%string then set (with_notnull true)
  else if is "onupdatecurrenttimestamp"%string then match d with MySQL => set (with_onupdate true) | _ => keep end
  else if is "collate"%string then set (with_collation (m_raw m))
  else if is "default"%string then set (with_default (default_value flt d (m_raw m)))
  else if is "generated"%string then set (with_generated true)
  else if is "dialect"%string then
    if is_empty (m_raw m) then Ok (report BlankDialect p, ds)
    else let ds := split_byte ","%char (m_raw m) in
         Ok (on_columns i (with_col_ignore (negb (bmem (dialect_name d) ds))) p, ds)
  else if is "index"%string then parsed (parse_index d [n] p m)
  else if is "primarykey"%string || is "unique"%string then parsed (parse_key d [n] p m)
  else if is "foreignkey"%string then parsed (parse_foreign_key d p m)
  else if is "references"%string then parsed (parse_references d n p m)
  else Ok (report (UnknownModifier (m_name m)) p, ds).

(** parseColumnModifiers, struct_parser.go:686-814.  The name of a type is never
    sq.EnumField, so that the column is never an enumeration. *)
Definition parse_column (flt : bytes -> bool) (d : dialect) (n ty : bytes) (p : parser) (ms : list modifier)
  : result parser :=
  bindr (get_or_create_column (pa_cache p) (pa_table p) n ty) (fun '(t, c, i) =>
  let p := on_columns i (with_enum (beqb ty (B"sq.EnumField"))) (with_table t c p) in
  bindr (foldr (column_modifier flt d n i) (p, []) ms) (fun '(p, _) => Ok p)).

(** parseTableModifiers, struct_parser.go:816-856. *)
Definition table_modifier (d : dialect) (s : parser * list bytes) (m : modifier) : result (parser * list bytes) :=
  let '(p, ds) := s in
  let m := if none (m_dialects m) then Mod ds (m_name m) (m_raw m) (m_value m) (m_subs m) else m in
  let is s := beqb (m_name m) (B s) in
  let parsed r := bindr r (fun p => Ok (p, ds)) in
  if is "dialect"%string then
    if is_empty (m_raw m) then Ok (report BlankDialect p, ds)
    else let ds := split_byte ","%char (m_raw m) in
         Ok (with_table (with_ignore (pa_table p) (negb (bmem (dialect_name d) ds))) (pa_cache p) p, ds)
  else if is "index"%string then parsed (parse_index d [] p m)
  else if is "primarykey"%string || is "unique"%string then parsed (parse_key d [] p m)
  else if is "foreignkey"%string then parsed (parse_foreign_key d p m)
  else if is "virtual"%string then
    match d with
    | SQLite =>
        let t := pa_table p in
        Ok (with_table (Table (tb_schema t) (tb_name t) (tb_sql t) true (tb_columns t) (tb_constraints t)
                          (tb_indexes t) (tb_ignore t)) (pa_cache p) p, ds)
    | _ => Ok (p, ds)
    end
  else Ok (report (UnknownModifier (m_name m)) p, ds).
Definition parse_table (d : dialect) (p : parser) (ms : list modifier) : result parser :=
  bindr (foldr (table_modifier d) (p, []) ms) (fun '(p, _) => Ok p).

(** The type and length of a column without a modifier, struct_parser.go:188-274.  [None]:
    the field is not a column. *)
Definition field_type (d : dialect) (ty : bytes) : option (bytes * bytes) :=
  if beqb ty (B"sq.AnyField") then Some ([], [])
  else if beqb ty (B"sq.ArrayField") then
    Some (match d with
          | SQLite | MySQL => (B"JSON", []) | Postgres => (B"TEXT[]", []) | SQLServer => (B"NVARCHAR(MAX)", B"MAX")
          | Other => (B"VARCHAR(255)", B"255")
          end)
  else if beqb ty (B"sq.BinaryField") then
    Some (match d with
          | SQLite => (B"BLOB", []) | Postgres => (B"BYTEA", []) | MySQL => (B"MEDIUMBLOB", [])
          | SQLServer => (B"VARBINARY(MAX)", B"MAX") | Other => (B"BINARY", [])
          end)
  else if beqb ty (B"sq.BooleanField") then Some (match d with SQLServer => B"BIT" | _ => B"BOOLEAN" end, [])
  else if beqb ty (B"sq.EnumField") || beqb ty (B"sq.StringField") then
    Some (match d with
          | SQLite | Postgres => (B"TEXT", []) | SQLServer => (B"NVARCHAR(255)", B"255")
          | _ => (B"VARCHAR(255)", B"255")
          end)
  else if beqb ty (B"sq.JSONField") then
    Some (match d with
          | SQLite | MySQL => (B"JSON", []) | Postgres => (B"JSONB", []) | SQLServer => (B"NVARCHAR(MAX)", B"MAX")
          | Other => (B"VARCHAR(255)", [])
          end)
  else if beqb ty (B"sq.NumberField") then Some (B"INT", [])
  else if beqb ty (B"sq.TimeField") then
    Some (match d with Postgres => B"TIMESTAMPTZ" | SQLServer => B"DATETIMEOFFSET" | _ => B"DATETIME" end, [])
  else if beqb ty (B"sq.UUIDField") then Some (match d with SQLite | Postgres => B"UUID" | _ => B"BINARY(16)" end, [])
  else None.

(** One field of a struct, struct_parser.go:174-281. *)
Definition parse_field (flt : bytes -> bool) (d : dialect) (p : parser) (f : field) : result parser :=
  if (is_empty (f_name f) && beqb (f_type f) (B"sq.TableStruct"))
     || (beqb (f_name f) (B"_") && beqb (f_type f) (B"struct{}"))
  then parse_table d p (f_mods f)
  else
    let n := if is_empty (f_tag f) then to_lower (f_name f) else f_tag f in
    match field_type d (f_type f) with
    | None => Ok p
    | Some (ty, len) =>
        bindr (if is_empty len then Ok p
               else bindr (get_or_create_column (pa_cache p) (pa_table p) n ty) (fun '(t, c, i) =>
                    Ok (on_columns i (with_length len) (with_table t c p)))) (fun p =>
        parse_column flt d n ty p (f_mods f))
    end.

(** The columns of a key that do not exist, struct_parser.go:289-296 and 335-341. *)
Fixpoint check_columns (p : parser) (l : list bytes) : result (list complaint) :=
  match l with
  | [] => Ok []
  | n :: l' =>
      bindr (get_column (pa_cache p) (pa_table p) n) (fun r =>
      bindr (check_columns p l') (fun cs =>
      Ok (match r with Some _ => cs | None => NoSuchColumn (tb_name (pa_table p)) n :: cs end)))
  end.
Definition reports (cs : list complaint) (p : parser) : parser :=
  Parser (pa_cache p) (pa_table p) (pa_locations p) (pa_explicit p) (pa_reports p ++ cs).

(** A constraint of the table, struct_parser.go:285-328.  The fields of a column that repeat
    its foreign key are left out, but reading the first referenced column panics if there
    is none. *)
Definition check_constraint (d : dialect) (p : parser) (c : constraint) : result parser :=
  if con_ignore c then Ok p
  else bindr (check_columns p (con_columns c)) (fun cs =>
    match cs, con_columns c with
    | [], [n] =>
        let t := pa_table p in
        bindr (get_column (pa_cache p) t n) (fun r =>
        match r with
        | None => Panic
        | Some i =>
            if beqb (con_type c) PRIMARY_KEY then
              Ok (on_columns i (fun x =>
                    let x := with_pkey true x in
                    if dialect_eqb d SQLite && equal_fold (col_type x) (B"INT")
                       && negb (kmem [tb_schema t; tb_name t; n] (pa_explicit p))
                    then with_type (B"INTEGER") x else x) p)
            else if beqb (con_type c) UNIQUE then Ok (on_columns i (with_unique true) p)
            else if beqb (con_type c) FOREIGN_KEY then
              match con_refcolumns c with [] => Panic | _ => Ok p end
            else Ok p
        end)
    | _, _ => Ok (reports cs p)
    end).

(** An index of the table, struct_parser.go:331-342. *)
Definition check_index (p : parser) (x : index) : result parser :=
  if ix_ignore x then Ok p
  else bindr (check_columns p (ix_columns x)) (fun cs => Ok (reports cs p)).

(** The columns of the primary key, struct_parser.go:345-360. *)
Definition require_column (d : dialect) (p : parser) (n : bytes) : result parser :=
  bindr (get_column (pa_cache p) (pa_table p) n) (fun r =>
  Ok (match r with
      | None => p
      | Some i =>
          on_columns i (fun x =>
            if dialect_eqb d SQLite && beqb (col_type x) (B"INTEGER") && col_pkey x then x else with_notnull true x) p
      end)).
Definition require_key (d : dialect) (p : parser) : result parser :=
  bindr (get_primary_key (pa_cache p) (pa_table p)) (fun r =>
  match r with
  | None => Ok p
  | Some i =>
      match nth_error (tb_constraints (pa_table p)) i with
      | None => Panic
      | Some c => foldr (require_column d) p (con_columns c)
      end
  end).

(** The fields and the checks for one table, struct_parser.go:174-361. *)
Definition fill_table (flt : bytes -> bool) (d : dialect) (p : parser) (fields : list field) : result parser :=
  bindr (foldr (parse_field flt d) p fields) (fun p =>
  bindr (foldr (check_constraint d) p (tb_constraints (pa_table p))) (fun p =>
  bindr (foldr check_index p (tb_indexes (pa_table p))) (fun p =>
  require_key d p))).

(** The schema and table that a struct stands for, struct_parser.go:158-168. *)
Definition struct_table (cur : bytes) (s : table_struct) (first : field) : bytes * bytes :=
  let name := if is_empty (f_tag first) then to_lower (ts_name s) else f_tag first in
  let '(sc, t) := match cut_byte "."%char name with Some (a, b) => (a, b) | None => ([], name) end in
  (if is_empty sc then cur else sc, t).

(** The parser between tables. *)
Record parsing := Parsing {
  pg_state : state; pg_locations : list key; pg_explicit : list key; pg_reports : list complaint
}.

(** One struct, struct_parser.go:154-361. *)
Definition parse_struct (flt : bytes -> bool) (d : dialect) (cur : bytes) (g : parsing) (s : table_struct)
  : result parsing :=
  match ts_fields s with
  | [] => Ok g
  | first :: _ =>
      let '(sn, tn) := struct_table cur s first in
      bindr (get_or_create_schema (pg_state g) sn) (fun '(st, i) =>
      match nth_error (st_schemas st) i with
      | None => Panic
      | Some sc =>
          bindr (get_or_create_table (st_cache st) sc tn) (fun '(sc, c, j) =>
          match nth_error (sc_tables sc) j with
          | None => Panic
          | Some t =>
              bindr (fill_table flt d (Parser c t (pg_locations g) (pg_explicit g) (pg_reports g)) (ts_fields s))
                (fun p =>
              Ok (Parsing
                    (State (set_nth i (with_tables sc (set_nth j (pa_table p) (sc_tables sc))) (st_schemas st)) (pa_cache p))
                    (pa_locations p) (pa_explicit p) (pa_reports p)))
          end)
      end)
  end.

(** The referenced columns that do not exist, struct_parser.go:388-395. *)
Fixpoint check_references (c : cache) (t : table) (l : list bytes) : result (list complaint) :=
  match l with
  | [] => Ok []
  | n :: l' =>
      bindr (get_column c t n) (fun r =>
      bindr (check_references c t l') (fun cs =>
      Ok (match r with Some _ => cs | None => NoSuchColumn (tb_name t) n :: cs end)))
  end.

(** A foreign key, struct_parser.go:367-395. *)
Definition check_foreign_key (cur : bytes) (g : parsing) (t : table) (x : constraint) : result (list complaint) :=
  if con_ignore x || negb (beqb (con_type x) FOREIGN_KEY) then Ok []
  else if negb (kmem [tb_schema t; con_name x] (pg_locations g)) then Ok []
  else
    let st := pg_state g in
    let sn := if is_empty (con_refschema x) then cur else con_refschema x in
    bindr (get_schema st sn) (fun r =>
    match r with
    | None => Ok [NoSuchSchema sn]
    | Some i =>
        match nth_error (st_schemas st) i with
        | None => Panic
        | Some sc =>
            bindr (get_table (st_cache st) sc (con_reftable x)) (fun r =>
            match r with
            | None => Ok [NoSuchTable sn (con_reftable x)]
            | Some j =>
                match nth_error (sc_tables sc) j with
                | None => Panic
                | Some reftable => check_references (st_cache st) reftable (con_refcolumns x)
                end
            end)
        end
    end).

(** WriteCatalog, struct_parser.go:148-399: the schemas and the reports. *)
Definition parse_structs (flt : bytes -> bool) (d : dialect) (cur : bytes) (schemas : list schema) (l : list table_struct)
  : result (list schema * list complaint) :=
  bindr (foldr (parse_struct flt d cur) (Parsing (new_state schemas) [] [] []) l) (fun g =>
  bindr (flatr (fun sc => flatr (fun t => flatr (check_foreign_key cur g t) (tb_constraints t)) (sc_tables sc))
           (st_schemas (pg_state g))) (fun cs =>
  Ok (st_schemas (pg_state g), pg_reports g ++ cs))).
