(** Model of the files with statements that dump writes, dump_cmd.go:623-840: schema.sql,
    indexes.sql and constraints.sql. *)
From Verif Require Import GoStr ModelSq ModelCatalog ModelCache ModelDdl ModelDiff ModelDiffSql ModelDdlText.

(** Enum, ddl.go:129-145, and Domain, ddl.go:148-180, without names of schemas, comments and flags. *)
Record enum := Enum { en_name : bytes; en_labels : list bytes }.
Record domain := Domain {
  dm_name : bytes; dm_type : bytes; dm_collation : bytes; dm_notnull : bool; dm_default : bytes;
  dm_checknames : list bytes; dm_checks : list bytes
}.

(** Texts one after the other, with an empty line before each but the first:
    [if buf.Len() > 0 { buf.WriteString("\n") }]. *)
Definition put_text (buf s : bytes) : bytes := buf ++ opt (given buf) NL ++ s.
Definition put_texts (l : list bytes) : bytes := fold_left put_text l [].

Section Dump.
Context (d : dialect) (cat : catalog).
Definition cur : bytes := ct_current cat.

(** dump_cmd.go:631-637. *)
Definition extension_text (n : bytes) : bytes := B"CREATE EXTENSION IF NOT EXISTS " ++ quote_identifier d n ++ B";" ++ NL.
(** A name in a schema, dump_cmd.go:647-650, 657-660, 677-680. *)
Definition type_name (schema n : bytes) : bytes := qtext d (qualify cur schema n).
(** dump_cmd.go:653-669. *)
Definition enum_text (schema : bytes) (e : enum) : bytes :=
  B"CREATE TYPE " ++ type_name schema (en_name e) ++ B" AS ENUM ("
  ++ join (B", ") (map (fun l => [squote] ++ escape_quote squote l ++ [squote]) (en_labels e)) ++ B");" ++ NL.
(** dump_cmd.go:691-703. *)
Fixpoint check_texts (names exprs : list bytes) : bytes :=
  match exprs with
  | [] => []
  | e :: exprs' =>
      let n := hd [] names in
      opt (given n) (B" CONSTRAINT " ++ quote_identifier d n) ++ B" CHECK " ++ wrap_brackets e
      ++ check_texts (tl names) exprs'
  end.
(** dump_cmd.go:672-705. *)
Definition domain_text (schema : bytes) (o : domain) : bytes :=
  B"CREATE DOMAIN " ++ type_name schema (dm_name o) ++ B" AS " ++ dm_type o
  ++ opt (dm_notnull o) (B" NOT NULL")
  ++ opt (given (dm_collation o) && negb (beqb (dm_collation o) (ct_collation cat)))
       (B" COLLATE " ++ [dquote] ++ escape_quote dquote (dm_collation o) ++ [dquote])
  ++ opt (given (dm_default o)) (B" DEFAULT " ++ dm_default o)
  ++ check_texts (dm_checknames o) (dm_checks o) ++ B";" ++ NL.
(** dump_cmd.go:640-706.  [types] gives the enums and domains of a schema, which are not in the
    record of ModelCatalog.v. *)
Definition schema_texts (types : schema -> list enum * list domain) (s : schema) : list bytes :=
  (if given (sc_name s) then [write_create_schema d (sc_name s)] else [])
  ++ map (enum_text (sc_name s)) (fst (types s)) ++ map (domain_text (sc_name s)) (snd (types s)).
(** dump_cmd.go:706-719. *)
Definition table_texts (s : schema) : list bytes :=
  map (fun t => write_create_table d cur (ct_collation cat) t false)
    (filter (fun t => negb (tb_virtual t && is_empty (tb_sql t))) (sc_tables s)).
(** dumpSchema, dump_cmd.go:623-729. *)
Definition dump_schema (extensions : list bytes) (types : schema -> list enum * list domain) : bytes :=
  put_texts (map extension_text extensions ++ flat_map (schema_texts types) (ct_schemas cat) ++ flat_map table_texts (ct_schemas cat)).

(** The line before the objects of a table, e.g. dump_cmd.go:745-749. *)
Definition heading (t : table) : bytes :=
  B"-- " ++ opt (given (tb_schema t) && negb (beqb (tb_schema t) cur)) (tb_schema t ++ B".") ++ tb_name t ++ NL.
(** dumpIndexes, dump_cmd.go:731-764. *)
Definition index_text (t : table) : bytes :=
  heading t ++ flat_map (fun x => write_create_index d cur x false) (tb_indexes t).
Definition dump_indexes : bytes := put_texts (flat_map (fun s => map index_text (sc_tables s)) (ct_schemas cat)).

(** ALTER TABLE .. ADD, dump_cmd.go:798-804 and 822-828. *)
Definition add_text (c : constraint) : bytes :=
  B"ALTER TABLE " ++ qtext d (qualify cur (con_schema c) (con_table c)) ++ B" ADD " ++ write_constraint d cur c ++ B";" ++ NL.
(** The constraints that are not written with the table and are not foreign keys,
    dump_cmd.go:790-797. *)
Definition added_early (c : constraint) : bool :=
  negb (beqb (con_type c) PRIMARY_KEY && (is d MySQL || is d SQLServer)) && negb (beqb (con_type c) FOREIGN_KEY).
Definition constraint_text (t : table) : bytes := heading t ++ flat_map add_text (filter added_early (tb_constraints t)).
(** dump_cmd.go:807-829. *)
Definition fkey_text (c : cache) (t : table) : result bytes :=
  bindr (get_foreign_keys c t) (fun l => Ok (heading t ++ flat_map add_text l)).
Fixpoint all_ok {A C} (f : A -> result C) (l : list A) : result (list C) :=
  match l with
  | [] => Ok []
  | a :: l' => bindr (f a) (fun c => bindr (all_ok f l') (fun cs => Ok (c :: cs)))
  end.
Definition constraint_texts (c : cache) (s : schema) : result (list bytes) :=
  bindr (all_ok (fkey_text c) (sc_tables s)) (fun l => Ok (map constraint_text (sc_tables s) ++ l)).
(** dumpConstraints, dump_cmd.go:766-840. *)
Definition dump_constraints : result bytes :=
  if is d SQLite then Ok []
  else bindr (all_ok (constraint_texts (new_cache (ct_schemas cat))) (ct_schemas cat)) (fun l => Ok (put_texts (concat l))).
End Dump.
