(** Model of ddl/table_structs.go: the table structs written for a catalog.  Upper-casing is
    that of ASCII.  A pointer to a modifier is its position in the list that holds it. *)
From Verif Require Import GoStr ModelCatalog ModelCache ModelDdl ModelModifier ModelDiff ModelGoTag.

(** StructField and TableStruct, table_structs.go:14-40, without positions. *)
Record field := Field { f_name : bytes; f_type : bytes; f_tag : bytes; f_mods : list modifier }.
Record table_struct := TableStruct { ts_name : bytes; ts_fields : list field }.

(** The values of rules and identities, ddl.go:27-36. *)
Definition DEFAULT_IDENTITY : bytes := B"GENERATED BY DEFAULT AS IDENTITY".
Definition ALWAYS_IDENTITY : bytes := B"GENERATED ALWAYS AS IDENTITY".
Definition IDENTITY : bytes := B"IDENTITY".
Definition RESTRICT : bytes := B"RESTRICT".
Definition CASCADE : bytes := B"CASCADE".
Definition NO_ACTION : bytes := B"NO ACTION".
Definition SET_NULL : bytes := B"SET NULL".
Definition SET_DEFAULT : bytes := B"SET DEFAULT".

(** needsQuoting, table_structs.go:473-484.  The loop runs over the runes; a byte of a
    longer rune is none of the characters allowed. *)
Definition plain_char (c : ascii) : bool := ceqb c underscore || is_digit c || is_lower c.
Definition needs_quoting (s : bytes) : bool :=
  match s with
  | c :: _ => is_digit c || negb (forallb plain_char s)
  | [] => false
  end.

(** strings.ToUpper(strings.ReplaceAll(name, " ", "_")), table_structs.go:75 and 186. *)
Definition go_name (s : bytes) : bytes := to_upper (replace_byte SPACE (B"_") s).

(** isSimpleIndex, table_structs.go:488-521. *)
Definition is_simple_index (x : index) : bool :=
  let sql := to_upper (ix_sql x) in
  negb (none (ix_columns x)) && none (ix_include x) && is_empty (ix_predicate x)
  && forallb negb (ix_descending x)
  && forallb (fun o => count_byte underscore o <=? 1) (ix_opclasses x)
  && forallb (fun c => negb (has_prefix c (B"("))) (ix_columns x)
  && negb (contains sql (B" WHERE ")) && negb (contains sql (B" DESC")) && negb (contains sql (B" INCLUDE ")).

(** getFieldType, table_structs.go:439-471. *)
Definition get_field_type (d : dialect) (c : column) : result bytes :=
  if col_enum c then Ok (B"sq.EnumField")
  else if has_suffix (col_type c) (B"[]") then Ok (B"sq.ArrayField")
  else bindr (normalize_column_type d (col_type c)) (fun '(t, arg1, _) => Ok (
    if beqb t (B"TINYINT") && beqb arg1 (B"1") then B"sq.BooleanField"
    else if beqb t (B"BINARY") && beqb arg1 (B"16") then B"sq.UUIDField"
    else if one_of t ["BYTEA"; "BINARY"; "VARBINARY"; "TINYBLOB"; "BLOB"; "MEDIUMBLOB"; "LONGBLOB"; "VARBIT"]%string
      then B"sq.BinaryField"
    else if one_of t ["BOOLEAN"; "BIT"]%string then B"sq.BooleanField"
    else if one_of t ["JSON"; "JSONB"]%string then B"sq.JSONField"
    else if one_of t ["TINYINT"; "SMALLINT"; "MEDIUMINT"; "INT"; "INTEGER"; "BIGINT"; "NUMERIC"; "FLOAT"; "REAL";
                      "DOUBLE PRECISION"]%string then B"sq.NumberField"
    else if one_of t ["TINYTEXT"; "TEXT"; "MEDIUMTEXT"; "LONGTEXT"; "CHAR"; "VARCHAR"; "NVARCHAR"]%string
      then B"sq.StringField"
    else if one_of t ["DATE"; "TIME"; "TIMETZ"; "DATETIME"; "DATETIME2"; "SMALLDATETIME"; "DATETIMEOFFSET"; "TIMESTAMP";
                      "TIMESTAMPTZ"]%string then B"sq.TimeField"
    else if one_of t ["UUID"; "UNIQUEIDENTIFIER"]%string then B"sq.UUIDField"
    else B"sq.AnyField")).

(** The type that needs no modifier, table_structs.go:192-264. *)
Definition default_type (d : dialect) (ty : bytes) : bytes :=
  if beqb ty (B"sq.BinaryField") then
    match d with
    | SQLite => B"BLOB" | Postgres => B"BYTEA" | MySQL => B"MEDIUMBLOB" | SQLServer => B"VARBINARY(MAX)"
    | Other => B"BINARY"
    end
  else if beqb ty (B"sq.BooleanField") then match d with SQLServer => B"BIT" | _ => B"BOOLEAN" end
  else if beqb ty (B"sq.EnumField") || beqb ty (B"sq.StringField") then
    match d with
    | SQLite | Postgres => B"TEXT" | SQLServer => B"NVARCHAR(255)" | _ => B"VARCHAR(255)"
    end
  else if beqb ty (B"sq.JSONField") then
    match d with
    | SQLite | MySQL => B"JSON" | Postgres => B"JSONB" | SQLServer => B"NVARCHAR(MAX)" | Other => B"VARCHAR(255)"
    end
  else if beqb ty (B"sq.NumberField") then B"INT"
  else if beqb ty (B"sq.TimeField") then
    match d with Postgres => B"TIMESTAMPTZ" | SQLServer => B"DATETIMEOFFSET" | _ => B"TIMESTAMP" end
  else if beqb ty (B"sq.UUIDField") then match d with SQLite | Postgres => B"UUID" | _ => B"BINARY(16)" end
  else [].

Definition raw_modifier (name : string) (raw : bytes) : modifier := Mod [] (B name) raw [] [].
Definition value_modifier (name : string) (value : bytes) (subs : list modifier) : modifier :=
  Mod [] (B name) [] value subs.
Definition flag (name : string) : modifier := Mod [] (B name) [] [] [].
Definition when_ (b : bool) (m : modifier) : list modifier := if b then [m] else [].

(** columnsEqual, table_structs.go:117-127. *)
Fixpoint columns_equal (a b : list bytes) : bool :=
  match a, b with
  | [], _ => true
  | x :: a', y :: b' => beqb x y && columns_equal a' b'
  | _ :: _, [] => false
  end.

(** A rule, table_structs.go:134-146. *)
Definition rule_modifier (name : string) (rule : bytes) : list modifier :=
  when_ (negb (is_empty rule) && negb (beqb rule NO_ACTION))
    (value_modifier name (to_lower (replace_byte SPACE [] rule)) []).

(** The value of references, table_structs.go:112-130. *)
Definition references_value (cur : bytes) (c : constraint) : bytes :=
  (if negb (is_empty (con_refschema c)) && negb (beqb (con_refschema c) cur) then con_refschema c ++ B"." else [])
  ++ con_reftable c
  ++ (if columns_equal (con_columns c) (con_refcolumns c) then [] else B"." ++ join (B",") (con_refcolumns c)).

(** The modifier of a constraint, table_structs.go:96-160. *)
Definition constraint_modifier (cur : bytes) (c : constraint) : list modifier :=
  let columns := join (B",") (con_columns c) in
  let deferral :=
    when_ (con_deferrable c) (if con_deferred c then flag "deferred" else flag "deferrable") in
  if con_ignore c then []
  else if beqb (con_type c) PRIMARY_KEY then [value_modifier "primarykey" columns deferral]
  else if beqb (con_type c) UNIQUE then [value_modifier "unique" columns deferral]
  else if beqb (con_type c) FOREIGN_KEY then
    [value_modifier "foreignkey" columns
       (raw_modifier "references" (references_value cur c)
        :: rule_modifier "onupdate" (con_update c) ++ rule_modifier "ondelete" (con_delete c) ++ deferral)]
  else [].

(** The modifier of an index, table_structs.go:162-176. *)
Definition index_modifier (x : index) : modifier :=
  value_modifier "index" (join (B",") (ix_columns x))
    (when_ (ix_unique x) (flag "unique")
     ++ when_ (negb (is_empty (ix_type x)) && negb (equal_fold (ix_type x) (B"BTREE"))) (raw_modifier "using" (ix_type x))).

(** The maps from columns to modifiers: the last one entered counts. *)
Fixpoint last_where {A} (f : A -> bool) (l : list A) : option nat :=
  match l with
  | [] => None
  | a :: l' => match last_where f l' with Some i => Some (S i) | None => if f a then Some 0 else None end
  end.
Definition entry (name : string) (columns : bytes) (l : list modifier) : option nat :=
  last_where (fun m => beqb (m_name m) (B name) && beqb (m_value m) columns) l.
Definition primarykey_entry (l : list modifier) : option nat :=
  last_where (fun m => beqb (m_name m) (B"primarykey")) l.

Definition with_value (v : bytes) (m : modifier) : modifier := Mod (m_dialects m) (m_name m) (m_raw m) v (m_subs m).
Definition add_sub (s m : modifier) : modifier := Mod (m_dialects m) (m_name m) (m_raw m) (m_value m) (m_subs m ++ [s]).

(** Indexes on the columns of a foreign key, table_structs.go:177-182: the modifiers of the
    constraints and the positions of the indexes that were nested in them. *)
Fixpoint nest_indexes (i : nat) (l : list modifier) (ixs : list modifier) : list modifier * list nat :=
  match ixs with
  | [] => (l, [])
  | x :: ixs' =>
      match entry "foreignkey" (m_value x) l with
      | Some p =>
          let l := match nth_error l p with Some m => set_nth p (add_sub (with_value [] x) m) l | None => l end in
          let '(l, nested) := nest_indexes (S i) l ixs' in (l, i :: nested)
      | None => nest_indexes (S i) l ixs'
      end
  end.

(** What the modifier at a position becomes on a column, table_structs.go:284-304. *)
Definition on_column (l : list modifier) (p : option nat) : list modifier :=
  match p with
  | Some i => match nth_error l i with Some m => [with_value [] m] | None => [] end
  | None => []
  end.
Definition references_of (m : modifier) : result modifier :=
  match m_subs m with
  | r :: subs => Ok (Mod (m_dialects m) (B"references") (m_raw m) (m_raw r) subs)
  | [] => Panic
  end.
Definition on_reference (l : list modifier) (p : option nat) : result (list modifier) :=
  match p with
  | Some i => match nth_error l i with Some m => bindr (references_of m) (fun r => Ok [r]) | None => Ok [] end
  | None => Ok []
  end.
Definition opt_list {A} (o : option A) : list A := match o with Some a => [a] | None => [] end.

(** Primary key of a column, table_structs.go:283. *)
Definition own_primarykey (l : list modifier) (n : bytes) : option nat :=
  match primarykey_entry l with
  | Some p => match nth_error l p with Some m => if beqb (m_value m) n then Some p else None | None => None end
  | None => None
  end.

(** The modifier for the type, table_structs.go:266-276. *)
Definition type_modifier (d : dialect) (ty : bytes) (pk : option nat) (c : column) : list modifier :=
  if negb (is_empty (col_domain c)) then [raw_modifier "type" (col_domain c)]
  else if negb (is_empty (col_type c)) && negb (beqb (col_type c) (default_type d ty)) then
    let rowid := dialect_eqb d SQLite && negb (is_none pk) && equal_fold (col_type c) (B"INTEGER") in
    when_ (negb rowid) (raw_modifier "type" (col_type c))
  else [].

(** The field of a column, table_structs.go:184-352.  [added]: the constraints and indexes
    whose modifiers have been written. *)
Definition column_field (cat : catalog) (l ixs : list modifier) (added : list nat * list nat) (c : column)
  : result (field * (list nat * list nat)) :=
  let d := ct_dialect cat in
  let n := col_name c in
  bindr (get_field_type d c) (fun ty =>
  let pk := own_primarykey l n in
  let uq := entry "unique" n l in
  let fk := entry "foreignkey" n l in
  let ix := match entry "index" n ixs with
            | Some i => if existsb (Nat.eqb i) (snd added) then None else Some i
            | None => None
            end in
  bindr (on_reference l fk) (fun references =>
  let mods :=
    type_modifier d ty pk c
    ++ when_ (col_notnull c) (flag "notnull")
    ++ on_column l pk ++ on_column l uq ++ references
    ++ (if col_autoincrement c then
          match d with SQLite => [flag "autoincrement"] | MySQL => [flag "auto_increment"] | _ => [] end
        else [])
    ++ match d with
       | Postgres =>
           if beqb (col_identity c) DEFAULT_IDENTITY then [flag "identity"]
           else if beqb (col_identity c) ALWAYS_IDENTITY then [flag "alwaysidentity"] else []
       | SQLServer => when_ (beqb (col_identity c) IDENTITY) (flag "identity")
       | _ => []
       end
    ++ when_ (negb (is_empty (col_default c)) && negb (existsb (ceqb backtick) (col_default c)))
         (raw_modifier "default" (unwrap_brackets (col_default c)))
    ++ when_ (col_onupdate c) (flag "onupdatecurrenttimestamp")
    ++ when_ (negb (is_empty (col_collation c)) && negb (beqb (col_collation c) (ct_collation cat)))
         (raw_modifier "collate" (col_collation c))
    ++ on_column ixs ix
    ++ when_ (col_generated c || negb (is_empty (col_expr c))) (flag "generated") in
  Ok (Field (go_name n) ty (if needs_quoting n then n else []) mods,
      (opt_list pk ++ opt_list uq ++ opt_list fk ++ fst added, opt_list ix ++ snd added)))).

Fixpoint column_fields (cat : catalog) (l ixs : list modifier) (added : list nat * list nat) (cs : list column)
  : result (list field * (list nat * list nat)) :=
  match cs with
  | [] => Ok ([], added)
  | c :: cs' =>
      if col_ignore c then column_fields cat l ixs added cs'
      else bindr (column_field cat l ixs added c) (fun '(f, added) =>
           bindr (column_fields cat l ixs added cs') (fun '(fs, added) => Ok (f :: fs, added)))
  end.

(** Modifiers that belong to no column, table_structs.go:357-377. *)
Definition remaining (added : list nat) (l : list modifier) : list field :=
  flat_map (fun '(i, m) => if existsb (Nat.eqb i) added then [] else [Field (B"_") (B"struct{}") [] [m]]) (indexed l).

(** The name of the table, table_structs.go:80-86. *)
Definition table_tag (cur : bytes) (t : table) : bytes :=
  if (negb (is_empty (tb_schema t)) && negb (beqb (tb_schema t) cur)) || needs_quoting (tb_name t)
  then (if is_empty (tb_schema t) then tb_name t else tb_schema t ++ B"." ++ tb_name t)
  else [].

(** One table, table_structs.go:73-378. *)
Definition read_table (cat : catalog) (t : table) : result table_struct :=
  let virtual := when_ (dialect_eqb (ct_dialect cat) SQLite && is_virtual t) (flag "virtual") in
  let constraints := flat_map (constraint_modifier (ct_current cat)) (tb_constraints t) in
  let ixs := map index_modifier (filter (fun x => negb (ix_ignore x) && is_simple_index x) (tb_indexes t)) in
  let '(l, nested) := nest_indexes 0 constraints ixs in
  bindr (column_fields cat l ixs ([], nested) (tb_columns t)) (fun '(fields, (added, added_ixs)) =>
  let '(mods, added) :=
    match primarykey_entry l with
    | Some p =>
        if existsb (Nat.eqb p) added then (virtual, added)
        else (match nth_error l p with Some m => [m] | None => virtual end, p :: added)
    | None => (virtual, added)
    end in
  Ok (TableStruct (go_name (tb_name t))
        (Field [] (B"sq.TableStruct") (table_tag (ct_current cat) t) mods
         :: fields ++ remaining added l ++ remaining added_ixs ixs))).

Fixpoint mapr {A C} (f : A -> result C) (l : list A) : result (list C) :=
  match l with
  | [] => Ok []
  | a :: l' => bindr (f a) (fun b => bindr (mapr f l') (fun bs => Ok (b :: bs)))
  end.

(** ReadCatalog, table_structs.go:68-382. *)
Definition read_catalog (cat : catalog) : result (list table_struct) :=
  mapr (read_table cat) (flat_map sc_tables (ct_schemas cat)).

(** ** Go source code *)
(** The tag of a field, table_structs.go:409-429. *)
Definition tag_text (f : field) : bytes :=
  let ddl := modifiers_string (f_mods f) in
  match f_tag f, ddl with
  | [], [] => []
  | tag, _ =>
      B" `" ++ (if is_empty tag then [] else B"sq:" ++ go_quote tag)
      ++ (if is_empty ddl then [] else (if is_empty tag then [] else B" ") ++ B"ddl:" ++ go_quote ddl) ++ B"`"
  end.
(** One field, table_structs.go:402-429. *)
Definition field_text (f : field) : bytes :=
  [LF; TAB] ++ (if is_empty (f_name f) then [] else f_name f ++ B" ") ++ f_type f ++ tag_text f.
(** One struct, table_structs.go:390-431. *)
Definition has_column (s : table_struct) : bool :=
  existsb (fun f => negb (is_empty (f_name f)) && negb (beqb (f_name f) (B"_"))) (ts_fields s).
Definition struct_text (s : table_struct) : bytes :=
  B"type " ++ ts_name s ++ B" struct {" ++ flat_map field_text (ts_fields s) ++ [LF] ++ B"}" ++ [LF].
(** MarshalText, table_structs.go:385-437. *)
Definition marshal_text (l : list table_struct) : bytes :=
  join [LF] (map struct_text (filter has_column l)).
