(** What table structs stand for: the table of a struct, the modifiers that are meant for a
    database, and what keys refer to. *)
From Verif Require Import GoStr ModelCatalog ModelModifier ModelStructs ModelParser.

(** The name of a table is the tag [sq] of the first field, or else the name of the struct in
    lower case; a schema may stand in front of it. *)
Definition named (s : table_struct) (n : bytes) : Prop :=
  exists first fields, ts_fields s = first :: fields /\
    (f_tag first <> [] /\ n = f_tag first \/ f_tag first = [] /\ n = map to_lower_c (ts_name s)).
Inductive stands_for (cur : bytes) (s : table_struct) : bytes -> bytes -> Prop :=
| stands_plain n : named s n -> ~ In "."%char n -> stands_for cur s cur n
| stands_blank n : named s ("."%char :: n) -> stands_for cur s cur n
| stands_qualified sc n : named s (sc ++ "."%char :: n) -> sc <> [] -> ~ In "."%char sc -> stands_for cur s sc n.
(** No two structs stand for the same table. *)
Definition one_struct_each (cur : bytes) (l : list table_struct) : Prop :=
  forall i j s1 s2 sc t, nth_error l i = Some s1 -> nth_error l j = Some s2 ->
    stands_for cur s1 sc t -> stands_for cur s2 sc t -> i = j.

(** A type with a closing bracket has an opening one. *)
Definition type_readable (m : modifier) : Prop :=
  m_name m = B"type" -> In ")"%char (m_raw m) -> In "("%char (m_raw m).
(** A foreign key with submodifiers says what it references. *)
Definition names_reference (d : dialect) (m : modifier) : Prop :=
  m_name m = B"foreignkey" ->
  forall m', parse_raw_value m = Some (Ok m') -> m_subs m' <> [] ->
    exists r, In r (m_subs m') /\ m_name r = B"references"
      /\ (m_dialects r = [] \/ In (dialect_name d) (m_dialects r)).

(** A modifier that is marked as one for other databases. *)
Definition for_others (d : dialect) (m : modifier) : Prop :=
  m_dialects m <> [] /\ ~ In (dialect_name d) (m_dialects m).
(** The same modifiers without some of those. *)
Inductive thinned (d : dialect) : list modifier -> list modifier -> Prop :=
| thinned_nil : thinned d [] []
| thinned_keep m l l' : thinned d l l' -> thinned d (m :: l) (m :: l')
| thinned_drop m l l' : for_others d m -> thinned d l l' -> thinned d (m :: l) l'.
(** A field that carries modifiers of the table and not of a column. *)
Definition table_field (f : field) : Prop :=
  f_name f = [] /\ f_type f = B"sq.TableStruct" \/ f_name f = B"_" /\ f_type f = B"struct{}".
Definition thinned_field (d : dialect) (f f' : field) : Prop :=
  f_name f' = f_name f /\ f_type f' = f_type f /\ f_tag f' = f_tag f /\ thinned d (f_mods f) (f_mods f').
Definition thinned_struct (d : dialect) (s s' : table_struct) : Prop :=
  ts_name s' = ts_name s /\ Forall2 (thinned_field d) (ts_fields s) (ts_fields s').
(** The same, with the modifiers of tables left as they are. *)
Definition thinned_columns (d : dialect) (s s' : table_struct) : Prop :=
  ts_name s' = ts_name s /\
  Forall2 (fun f f' => thinned_field d f f' /\ (table_field f -> f_mods f' = f_mods f)) (ts_fields s) (ts_fields s').

(** What keys and indexes refer to. *)
Definition has_column (t : table) (n : bytes) : Prop :=
  exists c, In c (tb_columns t) /\ col_name c = n /\ col_ignore c = false.
Definition table_in (schemas : list schema) (s n : bytes) (t : table) : Prop :=
  exists sc, In sc schemas /\ sc_name sc = s /\ In t (sc_tables sc) /\ tb_name t = n.
(** The parts of a table are there, and foreign keys refer to columns of tables that are there. *)
Definition parts_exist (t : table) : Prop :=
  (forall x, In x (tb_constraints t) -> con_ignore x = false -> forall n, In n (con_columns x) -> has_column t n)
  /\ (forall x, In x (tb_indexes t) -> ix_ignore x = false -> forall n, In n (ix_columns x) -> has_column t n).
Definition references_exist (cur : bytes) (schemas : list schema) (t : table) : Prop :=
  forall x, In x (tb_constraints t) -> con_ignore x = false -> con_type x = FOREIGN_KEY ->
  exists s r, (con_refschema x = [] /\ s = cur \/ con_refschema x <> [] /\ s = con_refschema x)
    /\ table_in schemas s (con_reftable x) r /\ tb_ignore r = false
    /\ forall n, In n (con_refcolumns x) -> has_column r n.
(** A foreign key has as many columns as it refers to. *)
Definition references_match (t : table) : Prop :=
  forall x, In x (tb_constraints t) -> con_ignore x = false -> con_type x = FOREIGN_KEY ->
    List.length (con_refcolumns x) = List.length (con_columns x).
