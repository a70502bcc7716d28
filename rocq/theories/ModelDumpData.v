(** Model of the queries for the data of a dump without subset queries (dump_cmd.go:252-292) and of the order in which
    they are asked (dump_cmd.go:375-390, 486-508, 595-617).

    Simplified: GetPrimaryKey finds the primary key of the table (C62); a query is answered at one moment; the values
    are written as in C01. *)
From Verif Require Import GoStr ModelSq ModelCatalog ModelDdl ModelDiff.
From Coq Require Import Permutation.

(** The columns of the query, dump_cmd.go:262-274. *)
Definition data_columns (t : table) : list bytes :=
  map col_name (filter (fun c => negb (negb (is_empty (col_expr c)) || col_generated c)) (tb_columns t)).
(** The first line of the file, dump_cmd.go:846-850. *)
Definition data_header (t : table) : list bytes :=
  map col_name (filter (fun c => negb (negb (is_empty (col_expr c)) || col_generated c)) (tb_columns t)).
(** catalog_cache.go:773-782, simplified. *)
Definition data_key (t : table) : option (list bytes) :=
  option_map con_columns (find (fun c => beqb (con_type c) PRIMARY_KEY && negb (con_ignore c)) (tb_constraints t)).
Definition list_text (d : dialect) (l : list bytes) : bytes := join (B", ") (map (quote_identifier d) l).
(** dump_cmd.go:260-288. *)
Definition data_query (d : dialect) (current : bytes) (t : table) : bytes :=
  B"SELECT " ++ list_text d (data_columns t) ++ B" FROM "
  ++ (if negb (is_empty (tb_schema t)) && negb (beqb (tb_schema t) current) then quote_identifier d (tb_schema t) ++ B"." else [])
  ++ quote_identifier d (tb_name t)
  ++ match data_key t with Some key => B" ORDER BY " ++ list_text d key | None => [] end.
(** dump_cmd.go:253-292. *)
Definition data_queries (d : dialect) (cat : catalog) : list (table * bytes) :=
  flat_map (fun s => flat_map (fun t =>
    if dialect_eqb d SQLite && is_virtual t then [] else [(t, data_query d (ct_current cat) t)]) (sc_tables s)) (ct_schemas cat).
(** The queries are asked one after the other for an archive, dump_cmd.go:375-390 and 486-508, and at the same time for a
    directory, dump_cmd.go:595-617. *)
Definition asked_as (archive : bool) (queries asked : list (table * bytes)) : Prop :=
  if archive then asked = queries else Permutation asked queries.
