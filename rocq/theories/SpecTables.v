(** What the file written by sqddl tables is for: every table has a struct of its own that stands
    for it; the file is Go source of a package. *)
From Verif Require Import GoStr ModelCatalog ModelGoTag ModelStructs ModelParser SpecGo SpecStructs ModelViews SpecViews.

(** The struct stands for the table; see SpecViews. *)
Definition schema_or (cur s : bytes) : bytes := match s with [] => cur | _ => s end.
Definition stands_for (cur : bytes) (g : go_struct) (t : table) : Prop :=
  exists first fields, gs_fields g = first :: fields /\ gf_names first = [] /\ gf_type first = Selector (B"sq") (B"TableStruct") /\
    named_view cur (said_name (gs_name g) (gf_tag first)) (schema_or cur (tb_schema t)) (tb_name t).
(** Two texts declare the same structs, but for their names and the names of the tables. *)
Definition same_modifiers (a b : option bytes) : Prop :=
  let ddl tag := match tag with None => [] | Some lit => match go_unquote lit with Some s => tag_get (B"ddl") s | None => [] end end in ddl a = ddl b.
Definition same_otherwise (g g' : go_struct) : Prop :=
  exists f f' fields, gs_fields g = f :: fields /\ gs_fields g' = f' :: fields /\ same_modifiers (gf_tag f) (gf_tag f').
(** Every table has a struct of its own. *)
Definition own_structs (cur text : bytes) (tables : list table) : Prop :=
  exists gs, go_declarations text = Some gs /\ NoDup (map gs_name gs) /\ Forall2 (stands_for cur) gs tables.
Definition tables_of (cat : catalog) : list table := flat_map sc_tables (ct_schemas cat).
(** A database has no two tables of one name in a schema. *)
Definition place (cur : bytes) (t : table) : bytes * bytes := (schema_or cur (tb_schema t), tb_name t).
Definition different_tables (cat : catalog) : Prop := NoDup (map (place (ct_current cat)) (tables_of cat)).
(** Names of schemas that can be in a Go identifier. *)
Definition schema_words (cat : catalog) : Prop :=
  (ct_current cat = [] \/ go_word (ct_current cat)) /\ Forall (fun t => tb_schema t = [] \/ go_word (tb_schema t)) (tables_of cat).
(** What suffices for different structs: schemas without underscores and spaces, and names that
    are different as Go identifiers; all tables are in schemas, or none is. *)
Definition far_apart (cat : catalog) : Prop :=
  (forall t c, In t (tables_of cat) -> In c (schema_or (ct_current cat) (tb_schema t)) -> c <> underscore /\ c <> SPACE) /\
  NoDup (map (fun t => (go_name (schema_or (ct_current cat) (tb_schema t)), go_name (tb_name t))) (tables_of cat)) /\
  (ct_current cat <> [] \/ Forall (fun t => tb_schema t <> []) (tables_of cat) \/ Forall (fun t => tb_schema t = []) (tables_of cat)).

(** Go source of a package: the package clause names it by an identifier other than the blank
    one, the import and the declarations follow. *)
Definition go_source (pkg file : bytes) (gs : list go_struct) : Prop :=
  is_ident pkg = true /\ pkg <> B"_" /\
  exists body, file = B"package " ++ pkg ++ [LF; LF] ++ B"import ""github.com/bokwoon95/sq""" ++ [LF; LF] ++ body /\ go_declarations body = Some gs.
(** go/format: it keeps the declarations and rejects other texts. *)
Definition formats (format : bytes -> option bytes) : Prop :=
  forall text, match go_declarations text with
               | Some gs => exists out, format text = Some out /\ go_declarations out = Some gs
               | None => True
               end.
(** The name of a directory: no slash, neither dot nor two dots. *)
Definition ordinary (d : bytes) : Prop := d <> [] /\ ~ In "/"%char d /\ d <> B"." /\ d <> B"..".
(** The file is in the directory of that name, which may be in another one.  Dots and further
    slashes between the two mean nothing. *)
Definition in_directory (file d : bytes) : Prop :=
  exists p f idle, ~ In "/"%char f /\ Forall (fun w => w = [] \/ w = B".") idle /\
    let rest := flat_map (fun w => w ++ B"/") idle ++ f in file = d ++ B"/" ++ rest \/ file = p ++ B"/" ++ d ++ B"/" ++ rest.
