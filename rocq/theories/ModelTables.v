(** Model of the Run functions of ddl/tables_cmd.go and ddl/views_cmd.go: schema-qualified
    structs, and the file that is written. *)
From Verif Require Import GoStr ModelCatalog ModelCache ModelDiff ModelStructs.

(** ** Schema-qualified structs *)
(** strings.Cut. *)
Definition cut (c : ascii) (s : bytes) : bytes * bytes := match cut_byte c s with Some p => p | None => (s, []) end.
(** One struct, tables_cmd.go:155-171.  Every struct has a first field. *)
Definition qualify (cur : bytes) (t : table_struct) : table_struct :=
  match ts_fields t with
  | [] => t
  | first :: fields =>
      let name := if is_empty (f_tag first) then to_lower (ts_name t) else f_tag first in
      let '(schema, name) := cut "."%char name in
      let '(schema, name) := if is_empty name then (name, schema) else (schema, name) in
      let schema := if is_empty schema && negb (is_empty cur) then cur else schema in
      if is_empty schema then t
      else TableStruct (go_name (schema ++ B"_" ++ name)) (Field (f_name first) (f_type first) (schema ++ B"." ++ name) (f_mods first) :: fields)
  end.
(** The structs of a catalog, tables_cmd.go:149-173. *)
Definition tables_structs (qualified : bool) (cat : catalog) : result (list table_struct) :=
  bindr (read_catalog cat) (fun l => Ok (if qualified then map (qualify (ct_current cat)) l else l)).

(** ** The file *)
(** path/filepath Clean, on Unix. *)
Definition clean_step (rooted : bool) (stack : list bytes) (c : bytes) : list bytes :=
  if is_empty c || beqb c (B".") then stack
  else if beqb c (B"..") then
    match stack with
    | top :: rest => if beqb top (B"..") then c :: stack else rest
    | [] => if rooted then [] else [c]
    end
  else c :: stack.
Definition rooted (p : bytes) : bool := match p with c :: _ => ceqb c "/"%char | [] => false end.
Definition clean (p : bytes) : bytes :=
  match (if rooted p then B"/" else []) ++ join (B"/") (rev (fold_left (clean_step (rooted p)) (split_byte "/"%char p) [])) with
  | [] => B"."
  | q => q
  end.
(** filepath.Dir and filepath.Base. *)
Definition dir (p : bytes) : bytes := clean (join (B"/") (removelast (split_byte "/"%char p) ++ [[]])).
Definition base (p : bytes) : bytes :=
  match p with
  | [] => B"."
  | _ => match filter (fun c => negb (is_empty c)) (split_byte "/"%char p) with [] => B"/" | cs => last cs [] end
  end.
(** The name of the package, tables_cmd.go:181-193, views_cmd.go:131-143. *)
Definition package_name (pkg file : bytes) : bytes :=
  let pkg := if is_empty pkg && negb (is_empty file) then
               let d := base (dir file) in
               if negb (is_empty d) && negb (beqb d (B".")) then replace_byte SPACE (B"_") d else pkg
             else pkg in
  if is_empty pkg then B"_" else pkg.
(** What is written, tables_cmd.go:174-212, views_cmd.go:124-167: [None] if nothing is, an error
    if the text cannot be formatted.  [format] is go/format.Source; making the directory and
    writing succeed. *)
Definition go_header (pkg : bytes) : bytes :=
  B"package " ++ pkg ++ [LF; LF] ++ B"import ""github.com/bokwoon95/sq""" ++ [LF; LF].
Definition go_output (format : bytes -> option bytes) (pkg file text : bytes) : result (option bytes) :=
  if is_empty text then Ok None
  else match format text with
       | None => Err
       | Some formatted => Ok (Some (go_header (package_name pkg file) ++ formatted))
       end.
