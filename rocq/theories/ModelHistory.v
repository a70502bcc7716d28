(** File selection and the history table: ddl/touch_cmd.go:246-345 and the history
    queries of migrate, ls, rm and mv. *)
From Verif Require Import GoStr ModelSq SpecSql.

(** ** File names *)
(** strings.HasPrefix(filename, "repeatable/"): touch_cmd.go:337, migrate_cmd.go:277. *)
Definition repeatable (f : bytes) : bool := has_prefix f (B"repeatable/").

(** The names that are skipped: touch_cmd.go:330-336.  filepath.ToSlash is the
    identity outside Windows. *)
Definition skipped (f : bytes) : bool :=
  negb (has_suffix f (B".sql")) || has_suffix f (B".undo.sql")
  || beqb (basename f) (B"schema.sql") || beqb (basename f) (B"indexes.sql")
  || beqb (basename f) (B"constraints.sql").

(** sortAndFilterFilenames, touch_cmd.go:325-345: two buffers filled in one loop. *)
Fixpoint sort_and_filter_loop (files result rep : list bytes) : list bytes :=
  match files with
  | [] => result ++ rep
  | f :: files' =>
      if skipped f then sort_and_filter_loop files' result rep
      else if repeatable f then sort_and_filter_loop files' result (rep ++ [f])
      else sort_and_filter_loop files' (result ++ [f]) rep
  end.
Definition sort_and_filter (files : list bytes) : list bytes := sort_and_filter_loop files [] [].

(** normalizeFilename, touch_cmd.go:310-323. *)
Definition strip_dot (s : bytes) : bytes :=
  if has_prefix s (B".") then trim_prefix (trim_prefix s (B".")) (B"/") else s.
Definition normalize_filename (filename dir : bytes) : bytes :=
  match dir with
  | [] => filename
  | _ => trim_prefix (trim_prefix (strip_dot filename) (strip_dot dir)) (B"/")
  end.

(** ** The history table *)
(** A row; of started_at only whether it is NULL is kept, time_taken_ns is left out. *)
Record row := {
  r_name : bytes;
  r_checksum : option bytes;
  r_started : bool;
  r_success : bool
}.

(** INSERT ... ON CONFLICT (filename) DO UPDATE of one row; filename is the primary
    key.  The statement text is the subject of ModelBatch.v. *)
Fixpoint upsert (r : row) (h : list row) : list row :=
  match h with
  | [] => [r]
  | x :: h' => if beqb (r_name x) (r_name r) then r :: h' else x :: upsert r h'
  end.
Definition upsert_all (rs h : list row) : list row := fold_left (fun h r => upsert r h) rs h.

Definition lookup (f : bytes) (h : list row) : option row :=
  find (fun r => beqb (r_name r) f) h.

(** The list of string literals after IN: migrate_cmd.go:221-228, ls_cmd.go,
    rm_cmd.go.  Each name is quoted with EscapeQuote. *)
Definition in_list (names : list bytes) : bytes :=
  join (B", ") (map (fun f => B"'" ++ escape_quote squote f ++ B"'") names).

(** How the database reads such a list. *)
Fixpoint parse_list (d : dialect) (fuel : nat) (s : bytes) : option (list bytes) :=
  match fuel with
  | O => None
  | S n =>
      match s with
      | c :: s' =>
          if ceqb c squote then
            match lex_strlit d s' with
            | Some (v, []) => Some [v]
            | Some (v, rest) =>
                match strip_prefix (B", ") rest with
                | Some rest' =>
                    match parse_list d n rest' with Some l => Some (v :: l) | None => None end
                | None => None
                end
            | None => None
            end
          else None
      | [] => None
      end
  end.

(** The names that the database compares with; [None] if the statement is not
    accepted.  An empty list is a syntax error except on SQLite. *)
Definition query_names (d : dialect) (names : list bytes) : option (list bytes) :=
  match names with
  | [] => match d with SQLite => Some [] | _ => None end
  | _ => let t := in_list names in parse_list d (S (List.length t)) t
  end.

(** Rows delivered by SELECT ... WHERE filename IN (...). *)
Definition select_rows (names : list bytes) (h : list row) : list row :=
  filter (fun r => bmem (r_name r) names) h.
(** DELETE ... WHERE filename IN (...). *)
Definition delete_rows (names : list bytes) (h : list row) : list row :=
  filter (fun r => negb (bmem (r_name r) names)) h.
