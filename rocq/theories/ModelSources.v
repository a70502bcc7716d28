(** Model of the values of -src and -dest in ddl/generate_cmd.go.  What is done with the content
    of a file or with a database is a parameter ([tools]); a file is its content.  filepath.ToSlash
    changes nothing on Unix; the entries of an archive that can be read can all be read. *)
From Verif Require Import GoStr ModelCatalog ModelDiff ModelDsn ModelTables.

(** The file system: what os.Open finds at a cleaned path, and what os.ReadFile finds for
    NormalizeDSN. *)
Inductive node := NoFile | Folder_ | File_ (content : bytes).
Record tools (C : Type) := Tools {
  t_open : bytes -> node;
  t_file : bytes -> file;
  t_json : bytes -> C -> result C;                        (* json.Decoder.Decode *)
  t_go : bytes -> C -> result C;                          (* StructParser.ParseFile and WriteCatalog *)
  t_database : dialect -> bytes -> bytes -> C -> result C;(* sql.Open and DatabaseIntrospector.WriteCatalog *)
  t_unzip : bytes -> option (list (bytes * bytes));
  t_untar : bytes -> option (list (bytes * bytes)) }.
Arguments t_open {C}. Arguments t_file {C}. Arguments t_json {C}. Arguments t_go {C}. Arguments t_database {C}.
Arguments t_unzip {C}. Arguments t_untar {C}.

Section Sources.
Context {C : Type} (T : tools C).
(** dirFS("."), ddl.go:918-929. *)
Definition open_ (name : bytes) : node := t_open T (match name with [] => [] | _ => clean name end).
Definition is_dir (name : bytes) : bool := match open_ name with Folder_ => true | _ => false end.
Definition with_content (name : bytes) (k : bytes -> result C) : result C :=
  match open_ name with File_ c => k c | _ => Err end.
(** writeCatalogFromZip and writeCatalogFromTgz, generate_cmd.go:390-459. *)
Definition schema_entry (zip : bool) (e : bytes * bytes) : bool :=
  negb (zip && has_prefix (fst e) (B"__MACOSX/")) && beqb (base (fst e)) (B"schema.json").
Definition from_archive (zip : bool) (content : bytes) (cat : C) : result C :=
  match (if zip then t_unzip T content else t_untar T content) with
  | None => Err
  | Some es => match find (schema_entry zip) es with Some e => t_json T (snd e) cat | None => Err end
  end.
(** writeCatalog, generate_cmd.go:322-388. *)
Definition write_catalog (history s : bytes) (cat : C) : result C :=
  if has_suffix s (B".json") then with_content s (fun c => t_json T c cat)
  else if has_suffix s (B".go") || has_suffix s (B".go.txt") then with_content s (fun c => t_go T c cat)
  else if has_suffix s (B".zip") then with_content s (fun c => from_archive true c cat)
  else if has_suffix s (B".tgz") || has_suffix s (B".tar.gz") then with_content s (fun c => from_archive false c cat)
  else if is_dir s then with_content (s ++ B"/schema.json") (fun c => t_json T c cat)
  else match normalize_dsn (t_file T) s with
       | None => Err
       | Some (d, dsn) => t_database T d dsn history cat
       end.
Fixpoint write_catalogs (history : bytes) (l : list bytes) (cat : C) : result C :=
  match l with [] => Ok cat | s :: l' => bindr (write_catalog history s cat) (write_catalogs history l') end.
(** The source and the destination, generate_cmd.go:117-148; the dialect and the current schema
    that the destination takes over are left out. *)
Definition source_catalog (history src db : bytes) (empty : C) : result C :=
  if negb (is_empty src) then write_catalogs history (split_byte ","%char src) empty
  else if negb (is_empty db) then write_catalog history db empty else Ok empty.
Definition dest_catalog (history dest : bytes) (empty : C) : result C :=
  if negb (is_empty dest) then write_catalogs history (split_byte ","%char dest) empty else Ok empty.
End Sources.
