(** Model of the default values that GetColumns reads, database_introspector.go:445-647; ModelDdlText.v
    has how they are written after DEFAULT (dump_cmd.go:1208-1210). *)
From Verif Require Import GoStr ModelDdl ModelSq ModelDiffSql.

(** [text] is what the script returns for the column (column_default): COALESCE(..., '') makes a
    column without a default and an empty text the same.  [flt] stands for strconv.ParseFloat. *)
Definition read_default (flt : bytes -> bool) (d : dialect) (text : bytes) : bytes :=
  match d with
  (* database_introspector.go:494-498 *)
  | SQLite =>
      match text with
      | [] => []
      | _ => if is_literal flt text then text else wrap_brackets text
      end
  (* database_introspector.go:597-599 *)
  | MySQL =>
      match text with
      | [] => []
      | _ => if is_literal flt text || wrapped_in_brackets text then text
             else [squote] ++ escape_quote squote text ++ [squote]
      end
  (* database_introspector.go:639-642 *)
  | SQLServer =>
      let e := unwrap_brackets (unwrap_brackets text) in
      if is_literal flt e then e else wrap_brackets e
  (* database_introspector.go:514 *)
  | _ => text
  end.
