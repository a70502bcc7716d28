(** Model of where the mistakes in the tags of a struct are reported, ddl/struct_parser.go: the keys of a location while
    the modifiers of a field are read, and the texts that the command and the linter show.  What is read besides, and in
    which order, is in ModelParser.v.

    Simplified: the position in the file is a text or nothing; a modifier whose value can neither be read nor refused does
    not exist (C76), it has no reports here; the checks of whole tables (struct_parser.go:283-396) are left out (C78). *)
From Verif Require Import GoStr ModelDdl ModelModifier ModelCatalog ModelCache ModelDiff ModelStructs ModelParser ModelAnnotate.

(** The keys of a location and what is wrong there. *)
Definition note := (list bytes * complaint)%type.
(** struct_parser.go:419-435. *)
Definition index_sub_notes (d : dialect) (keys : list bytes) (m : modifier) : list note :=
  if excluded d m then []
  else if beqb (m_name m) (B"unique") then []
  else if beqb (m_name m) (B"using") then []
  else [(keys, UnknownModifier (m_name m))].
(** parseIndexModifier, 401-436. *)
Definition index_notes (d : dialect) (columns keys : list bytes) (m : modifier) : list note :=
  match parsed_value m with
  | Err => [(keys, BadModifier (m_raw m))]
  | Panic => []
  | Ok m' =>
      (if negb (own_value (m_value m')) && none columns then [(keys, NoColumn)] else []) ++
      flat_map (index_sub_notes d keys) (m_subs m')
  end.
(** 465-482. *)
Definition key_sub_notes (d : dialect) (keys : list bytes) (m : modifier) : list note :=
  if excluded d m then []
  else if beqb (m_name m) (B"deferrable") then []
  else if beqb (m_name m) (B"deferred") then []
  else [(keys, UnknownModifier (m_name m))].
(** parsePrimaryKeyUniqueModifier, 438-484. *)
Definition key_notes (d : dialect) (columns keys : list bytes) (m : modifier) : list note :=
  match parsed_value m with
  | Err => [(keys, BadModifier (m_raw m))]
  | Panic => []
  | Ok m' =>
      (if negb (own_value (m_value m')) && none columns then [(keys, NoColumn)] else []) ++
      flat_map (key_sub_notes d keys) (m_subs m')
  end.
(** One submodifier of a foreign key, 509-587 and 619-683: the keys that the next one starts with, and the reports.
    [own]: the submodifier references is known. *)
Definition foreign_step (d : dialect) (own : bool) (columns keys : list bytes) (m : modifier) : list bytes * list note :=
  let longer := keys ++ [m_name m] in
  if excluded d m then (keys, [])
  else if own && beqb (m_name m) (B"references") then (keys, [])
  else if beqb (m_name m) (B"onupdate") || beqb (m_name m) (B"ondelete") then
    match rule_of d (m_raw m) with
    | Some _ => (keys, [])
    | None => (longer, [(longer, UnknownValue (m_raw m))])
    end
  else if beqb (m_name m) (B"deferrable") then (keys, [])
  else if beqb (m_name m) (B"deferred") then (keys, [])
  else if beqb (m_name m) (B"index") then (longer, index_notes d columns longer m)
  else (keys, [(keys, UnknownModifier (m_name m))]).
Fixpoint foreign_subs (d : dialect) (own : bool) (columns keys : list bytes) (l : list modifier) : list note :=
  match l with
  | [] => []
  | m :: l' => let (keys', ns) := foreign_step d own columns keys m in ns ++ foreign_subs d own columns keys' l'
  end.
(** parseForeignKeyModifier, 486-588. *)
Definition foreign_notes (d : dialect) (keys : list bytes) (m : modifier) : list note :=
  match parsed_value m with
  | Err => [(keys, BadModifier (m_raw m))]
  | Panic => []
  | Ok m' =>
      if negb (own_value (m_value m')) then [(keys, NoColumn)]
      else if none (m_subs m') then [(keys, NoReference)]
      else foreign_subs d true (split_byte ","%char (m_value m')) keys (m_subs m')
  end.
(** parseReferencesModifier, 590-684. *)
Definition references_notes (d : dialect) (column : bytes) (keys : list bytes) (m : modifier) : list note :=
  match parsed_value m with
  | Err => [(keys, BadModifier (m_raw m))]
  | Panic => []
  | Ok m' => (if is_empty column then [(keys, NoColumn)] else []) ++ foreign_subs d false [column] keys (m_subs m')
  end.

(** The names of the modifiers of a column that are never wrong, 703-784. *)
Definition column_words : list bytes :=
  map B ["type"; "len"; "auto_increment"; "autoincrement"; "identity"; "alwaysidentity"; "notnull"; "onupdatecurrenttimestamp";
         "collate"; "default"; "generated"]%string.
(** One modifier of a column ([column]) or of a table, 693-812 and 819-855: the keys and the dialects that the next one
    starts with, and the reports. *)
Definition field_step (d : dialect) (column : option bytes) (s : list bytes * list bytes) (m : modifier)
  : (list bytes * list bytes) * list note :=
  let '(keys, ds) := s in
  let m := if none (m_dialects m) then Mod ds (m_name m) (m_raw m) (m_value m) (m_subs m) else m in
  let is x := beqb (m_name m) (B x) in
  let own := opt_list column in
  let here ns := (([m_name m], ds), ns) in
  if match column with Some _ => excluded d m | None => false end then (s, [])
  else if match column with Some _ => bmem (m_name m) column_words | None => is "virtual"%string end then (s, [])
  else if is "dialect"%string then
    if is_empty (m_raw m) then here [([m_name m], BlankDialect)]
    else ((keys, split_byte ","%char (m_raw m)), [])
  else if is "index"%string then here (index_notes d own [m_name m] m)
  else if is "primarykey"%string || is "unique"%string then here (key_notes d own [m_name m] m)
  else if is "foreignkey"%string then here (foreign_notes d [m_name m] m)
  else match column with
       | Some n =>
           if is "references"%string then here (references_notes d n [m_name m] m)
           else (s, [(keys, UnknownModifier (m_name m))])
       | None => (s, [(keys, UnknownModifier (m_name m))])
       end.
(** parseColumnModifiers and parseTableModifiers. *)
Fixpoint field_notes (d : dialect) (column : option bytes) (s : list bytes * list bytes) (l : list modifier) : list note :=
  match l with
  | [] => []
  | m :: l' => let (s', ns) := field_step d column s m in ns ++ field_notes d column s' l'
  end.
Definition tag_notes (d : dialect) (column : option bytes) (l : list modifier) : list note := field_notes d column ([], []) l.

(** ** Texts *)
Record location := Location { lo_struct : bytes; lo_field : bytes; lo_keys : list bytes }.
Definition place (l : location) : bytes :=
  if negb (is_empty (lo_struct l)) && negb (is_empty (lo_field l)) then lo_struct l ++ B"." ++ lo_field l ++ B": " else [].
(** parserDiagnostics.Error, 918-952: one line. *)
Definition error_line (pos : option bytes) (l : location) (msg : bytes) : bytes :=
  match pos with Some p => p ++ B": " | None => [] end ++ place l ++
  (if none (lo_keys l) then [] else join (B".") (lo_keys l) ++ B": ") ++ msg.
(** StructParser.Diagnostics, 878-907. *)
Definition diagnostic (l : location) (msg : bytes) : bytes := place l ++ join (B".") (lo_keys l) ++ B": " ++ msg.
(** The linter, 966-977: pass.Reportf with the diagnostic as format and no arguments. *)
Definition lint (l : location) (msg : bytes) : shown :=
  let f := diagnostic l msg in match printf (List.length f) f None with Some s => Text s | None => Unknown end.
