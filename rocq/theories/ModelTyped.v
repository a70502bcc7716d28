(** Model of a dump of a Postgres database with extensions and types: what DumpCmd.Run, dump_cmd.go:200-224, reads
    (ModelExtras.v) and what it writes (ModelDump.v).

    Simplified: schemas are one object of the catalog in the Go code, here the types come with the places of
    ModelExtras.v and the tables with the schemas of ModelCatalog.v; no names are included or excluded. *)
From Verif Require Import GoStr ModelCatalog ModelCache ModelDump ModelExtras.

(** Filter without any names, dump_cmd.go:205-213. *)
Definition everything : extra_choice := ExtraChoice false [] [] [] [] [] [] [] [] [] [] [].
(** schema.Enums and schema.Domains, dump_cmd.go:653, 672. *)
Definition types_of (places : list place) (s : schema) : list enum * list domain :=
  let here := filter (fun p => beqb (pl_name p) (sc_name s)) places in
  (map fst (flat_map pl_enums here), map fst (flat_map pl_domains here)).
(** schema.sql, indexes.sql and constraints.sql, dump_cmd.go:623-840. *)
Definition typed_dump (db : live) (cat : catalog) : result (list bytes) :=
  bindr (read_extras Postgres everything db) (fun '(exts, places) =>
  bindr (dump_constraints Postgres cat) (fun c =>
  Ok [dump_schema Postgres cat exts (types_of places); dump_indexes Postgres cat; c])).
