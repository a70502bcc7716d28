(** Model of ddl/view_structs.go: the view structs written for a catalog.  Upper-casing is that
    of ASCII.  Structs and fields are those of ModelStructs, without modifiers. *)
From Verif Require Import GoStr ModelCatalog ModelCache ModelDiff ModelStructs.

(** View, ddl.go:214-248, as far as it is used. *)
Record view := View { vw_schema : bytes; vw_name : bytes; vw_columns : list bytes; vw_types : list bytes; vw_enums : list bytes }.

(** The tag of the first field, view_structs.go:51-57. *)
Definition view_tag (cur : bytes) (v : view) : bytes :=
  if (negb (is_empty (vw_schema v)) && negb (beqb (vw_schema v) cur)) || needs_quoting (vw_name v)
  then (if is_empty (vw_schema v) then vw_name v else vw_schema v ++ B"." ++ vw_name v)
  else [].
(** The column that getFieldType is asked for, view_structs.go:62-72; [i] is the position. *)
Definition view_column (v : view) (i : nat) (c : bytes) : column :=
  Column [] [] [] (nth i (vw_types v) []) [] [] [] [] (bmem c (vw_enums v)) false false false false [] [] false false [] false [] false.
(** The fields of the columns, view_structs.go:62-75. *)
Fixpoint view_fields (d : dialect) (v : view) (i : nat) (cs : list bytes) : result (list field) :=
  match cs with
  | [] => Ok []
  | c :: cs' =>
      bindr (get_field_type d (view_column v i c)) (fun ty =>
      bindr (view_fields d v (S i) cs') (fun fs => Ok (Field (go_name c) ty [] [] :: fs)))
  end.
(** One view, view_structs.go:46-76. *)
Definition read_view (d : dialect) (cur : bytes) (v : view) : result table_struct :=
  bindr (view_fields d v 0 (vw_columns v)) (fun fs =>
  Ok (TableStruct (go_name (vw_name v)) (Field [] (B"sq.ViewStruct") (view_tag cur v) [] :: fs))).
(** ReadCatalog, view_structs.go:43-80: the views of the schemas, one after the other. *)
Definition read_views (d : dialect) (cur : bytes) (schemas : list (list view)) : result (list table_struct) :=
  mapr (read_view d cur) (concat schemas).
(** MarshalText, view_structs.go:83-113; the text of a field is that of table_structs.go. *)
Definition views_text (l : list table_struct) : bytes := join [LF] (map struct_text l).
