(** Model of the column types that GetColumns reads, database_introspector.go:445-647, and that
    writeColumnDefinition writes, dump_cmd.go:1174-1181.  Lengths, precisions and scales of the column that
    do not become part of the type are left out. *)
From Verif Require Import GoStr ModelCatalog ModelDdl.

(** The columns of the script that have to do with the type. *)
Record type_row := TypeRow {
  tr_type : bytes; tr_enum : bool; tr_domain : bytes; tr_length : bytes; tr_precision : bytes; tr_scale : bytes
}.
(** (arg1, arg2), database_introspector.go:542-547. *)
Definition with_args (t a1 a2 : bytes) : bytes :=
  match a1, a2 with
  | [], _ => t
  | _, [] => t ++ B"(" ++ a1 ++ B")"
  | _, _ => t ++ B"(" ++ a1 ++ B"," ++ a2 ++ B")"
  end.
(** database_introspector.go:515-550; the cases for TIMESTAMPTZ and FLOAT matter for enums only, as the type
    is set again. *)
Definition read_type_postgres (r : type_row) : result bytes :=
  bindr (normalize_column_type Postgres (tr_type r)) (fun '(n, a1, a2) =>
    let ct :=
      if beqb n (B"TIMESTAMPTZ") then with_args (B"timestamptz") a1 []
      else if beqb n (B"FLOAT") then match a1 with [] => tr_type r | _ => B"float(" ++ a1 ++ B")" end
      else tr_type r in
    Ok (if tr_enum r then to_lower ct else with_args (to_lower n) a1 a2)).
(** database_introspector.go:619-638. *)
Definition read_type_sqlserver (r : type_row) : result bytes :=
  bindr (normalize_column_type SQLServer (tr_type r)) (fun '(n, _, _) =>
    Ok (if one_of n ["VARBINARY"; "BINARY"; "NVARCHAR"; "VARCHAR"; "CHAR"]%string then
          tr_type r ++ B"(" ++ (if beqb (tr_length r) (B"-1") then B"MAX" else tr_length r) ++ B")"
        else if beqb n (B"NUMERIC") then
          match tr_precision r, tr_scale r with
          | [], _ => tr_type r
          | p, [] => tr_type r ++ B"(" ++ p ++ B")"
          | p, s => tr_type r ++ B"(" ++ p ++ B"," ++ s ++ B")"
          end
        else tr_type r)).
Definition read_type (d : dialect) (r : type_row) : result bytes :=
  match d with
  (* database_introspector.go:490-493 *)
  | SQLite => Ok (trim_suffix (tr_type r) (B" GENERATED ALWAYS"))
  | Postgres => read_type_postgres r
  (* database_introspector.go:573: only checked for panics *)
  | MySQL => bindr (normalize_column_type MySQL (tr_type r)) (fun _ => Ok (tr_type r))
  | SQLServer => read_type_sqlserver r
  | Other => Err
  end.
(** dump_cmd.go:1174-1181, for columns that are not generated. *)
Definition dump_type (d : dialect) (r : type_row) : result bytes :=
  bindr (read_type d r) (fun t =>
    Ok (match tr_domain r with
        | _ :: _ => tr_domain r
        | [] => if tr_enum r then t else to_upper t
        end)).
