(** Table structs that can be written as Go code, and what it means that they are read back. *)
From Verif Require Import GoStr ModelCatalog ModelModifier SpecModifier ModelStructs ModelParser SpecGo.

(** Modifiers without backticks. *)
Inductive no_backticks : modifier -> Prop :=
| no_ticks ds n raw value subs : ~ In backtick n -> ~ In backtick raw -> ~ In backtick value -> Forall no_backticks subs ->
    no_backticks (Mod ds n raw value subs).

(** Fields: an embedded type, or an identifier with a type; texts without backticks;
    modifiers that survive printing. *)
Definition sq_type (ty : bytes) : Prop := exists x, ty = B"sq." ++ x /\ is_ident x = true.
Definition field_ok (f : field) : Prop :=
  (f_name f = [] /\ sq_type (f_type f) \/ is_ident (f_name f) = true /\ (sq_type (f_type f) \/ f_type f = B"struct{}"))
  /\ ~ In backtick (f_tag f)
  /\ Forall printable (f_mods f) /\ Forall no_backticks (f_mods f) /\ long_start (f_mods f).
Definition struct_ok (s : table_struct) : Prop :=
  is_ident (ts_name s) = true
  /\ (exists first fields, ts_fields s = first :: fields /\ f_name first = [] /\ f_type first = B"sq.TableStruct")
  /\ Forall field_ok (ts_fields s)
  /\ exists f, In f (ts_fields s) /\ f_name f <> [] /\ f_name f <> B"_".

(** A struct that was read is the one that was written. *)
Definition same_field (f f' : field) : Prop :=
  f_name f' = f_name f /\ f_type f' = f_type f /\ f_tag f' = f_tag f /\ Forall2 reads (f_mods f) (f_mods f').
Definition same_struct (s s' : table_struct) : Prop :=
  ts_name s' = ts_name s /\ Forall2 same_field (ts_fields s) (ts_fields s').

(** Catalogs whose table structs are Go code.  Names of tables and columns: letters, digits,
    underscores and blanks, no digit in front. *)
Definition go_word (n : bytes) : Prop :=
  (exists c s, n = c :: s /\ is_digit c = false)
  /\ forall c, In c n -> is_letter c = true \/ is_digit c = true \/ c = underscore \/ c = SPACE.
(** Texts without braces and backticks. *)
Definition quiet (s : bytes) : Prop := ~ In "{"%char s /\ ~ In "}"%char s /\ ~ In backtick s.
Definition value_ok (s : bytes) : Prop := plain_value s /\ ~ In backtick s.
Definition column_ok (c : column) : Prop :=
  go_word (col_name c) /\ value_ok (col_type c) /\ value_ok (col_domain c) /\ value_ok (col_collation c)
  /\ forall v, col_default c = v \/ col_default c = B"(" ++ v ++ B")" -> plain_value v.
Definition constraint_ok (c : constraint) : Prop :=
  Forall quiet (con_columns c)
  /\ (con_type c = FOREIGN_KEY ->
      con_reftable c <> [] /\ quiet (con_refschema c) /\ quiet (con_reftable c) /\ Forall quiet (con_refcolumns c)
      /\ quiet (con_update c) /\ quiet (con_delete c)).
Definition index_ok (x : index) : Prop := Forall quiet (ix_columns x) /\ value_ok (ix_type x).
Definition table_ok (t : table) : Prop :=
  go_word (tb_name t) /\ ~ In backtick (tb_schema t)
  /\ (forall c, In c (tb_columns t) -> col_ignore c = false -> column_ok c)
  /\ (exists c, In c (tb_columns t) /\ col_ignore c = false /\ col_name c <> B"_" /\ col_name c <> B" ")
  /\ (forall c, In c (tb_constraints t) -> con_ignore c = false -> constraint_ok c)
  /\ (forall x, In x (tb_indexes t) -> ix_ignore x = false -> index_ok x).
Definition writable (cat : catalog) : Prop :=
  forall s t, In s (ct_schemas cat) -> In t (sc_tables s) -> table_ok t.
