(** Model of the commands touch, rm, mv and ls: ddl/touch_cmd.go:98-193,
    ddl/rm_cmd.go:85-137, ddl/mv_cmd.go:89-137 and ddl/ls_cmd.go:104-279. *)
From Verif Require Import GoStr ModelSq SpecSql ModelHistory ModelMigrate.
From Verif Require ModelBatch.

(** ** touch *)
(** The BatchInsert of touch_cmd.go:138-143 (Batchsize is left at zero). *)
Definition history_batch (d : dialect) : ModelBatch.batch_insert :=
  {| ModelBatch.bi_batchsize := 0; ModelBatch.bi_dialect := d; ModelBatch.bi_schema := [];
     ModelBatch.bi_table := B"sqddl_history";
     ModelBatch.bi_columns := map B ["filename"; "checksum"; "started_at"; "time_taken_ns"; "success"]%string;
     ModelBatch.bi_keys := [B"filename"]; ModelBatch.bi_identity := [] |}.
Definition history_batch_size (d : dialect) : nat := Z.to_nat (ModelBatch.batch_size (history_batch d)).

(** The iterator, touch_cmd.go:151-177.  All rows are written into one buffer, of which
    the checksum column [sum] is only set for repeatable scripts.  [None]: the script
    cannot be read. *)
Definition touch_row (c : config) (sum : option bytes) (f : bytes) : option row :=
  if repeatable f then
    match c_dir c f with
    | None => None
    | Some contents =>
        Some {| r_name := f; r_checksum := Some (checksum_of c contents); r_started := true; r_success := true |}
    end
  else Some {| r_name := f; r_checksum := sum; r_started := true; r_success := true |}.

(** ExecContext with this iterator, batch_insert.go:317-401; [acc] are the rows of the
    current batch.  Preparing the statements (and the update that precedes the insert on
    SQL Server) is part of the call that writes the rows.  The result tells whether
    there was no error. *)
Fixpoint touch_loop (c : config) (files : list bytes) (sum : option bytes) (acc : list row) : prog bool :=
  match files with
  | [] =>
      match acc with
      | [] => ret true
      | _ => do r <- call (OpUpsert acc) ;; ret (is_ok r)
      end
  | f :: files' =>
      match touch_row c sum f with
      | None => ret false
      | Some r =>
          let acc := acc ++ [r] in
          if history_batch_size (c_dialect c) <=? List.length acc then
            do rep <- call (OpUpsert acc) ;;
            if is_ok rep then touch_loop c files' (r_checksum r) [] else ret false
          else touch_loop c files' (r_checksum r) acc
      end
  end.

(** TouchCmd.Run, touch_cmd.go:98-193.  [walk] is the result of walkDir.  The deferred
    Rollback does nothing after Commit. *)
Definition touch (c : config) (walk args : list bytes) : prog outcome :=
  do r <- call OpEnsure ;;
  if is_ok r then
    match selected_files c walk args with
    | None => ret Failed
    | Some files =>
        do r <- call OpBegin ;;
        if is_ok r then
          do ok <- touch_loop c files None [] ;;
          if ok : bool then
            do r <- call OpCommit ;;
            ret (if is_ok r then Done else Failed)
          else do _ <- call OpRollback ;; ret Failed
        else ret Failed
    end
  else ret Failed.

(** ** rm and mv *)
(** historyTableExists, touch_cmd.go:195-245.  A history is [None] if the table does
    not exist; [ok] tells whether the query succeeds.  The result is [None] for an
    error. *)
Definition table_exists {A} (d : dialect) (ok : bool) (h : option A) : option bool :=
  match d with
  | Other => None
  | _ => if ok then Some (match h with Some _ => true | None => false end) else None
  end.

(** A statement executed by the database: [new] is the table after it, [None] if the
    database refuses it. *)
Definition execute (new : option (list row)) (r : reply) (h : list row) : list row * bool :=
  match new with
  | None => (h, false)
  | Some h' =>
      match r with
      | RErr _ applied => (if applied then h' else h, false)
      | _ => (h', true)
      end
  end.

(** RmCmd.Run, rm_cmd.go:102-136.  [ok], [r] and [counted] are the answers to the three
    calls; RowsAffected fails after the statement has been executed. *)
Definition rm (d : dialect) (files : list bytes) (ok : bool) (r : reply) (counted : bool) (h : option (list row))
  : option (list row) * outcome :=
  match files with
  | [] => (h, Done)
  | _ =>
      match table_exists d ok h, h with
      | Some true, Some rows =>
          let new := match query_names d files with Some names => Some (delete_rows names rows) | None => None end in
          let '(rows', executed) := execute new r rows in
          (Some rows', if executed && counted then Done else Failed)
      | Some _, _ => (h, Done)
      | None, _ => (h, Failed)
      end
  end.

(** The text from the first string literal on: mv_cmd.go:122-123. *)
Definition move_text (dest src : bytes) : bytes :=
  escape_quote squote dest ++ B"' WHERE filename = '" ++ escape_quote squote src ++ B"'".
(** How the database reads it. *)
Definition read_move (d : dialect) (text : bytes) : option (bytes * bytes) :=
  match lex_strlit d text with
  | Some (dest, rest) =>
      match strip_prefix (B" WHERE filename = '") rest with
      | Some rest' => match lex_strlit d rest' with Some (src, []) => Some (dest, src) | _ => None end
      | None => None
      end
  | None => None
  end.
Definition rename (dest src : bytes) (r : row) : row :=
  if beqb (r_name r) src then
    {| r_name := dest; r_checksum := r_checksum r; r_started := r_started r; r_success := r_success r |}
  else r.
(** UPDATE ... SET filename = dest WHERE filename = src; the primary key forbids two
    rows with the same name. *)
Definition move_rows (dest src : bytes) (h : list row) : option (list row) :=
  if negb (beqb dest src) && bmem src (map r_name h) && bmem dest (map r_name h) then None
  else Some (map (rename dest src) h).

(** MvCmd.Run, mv_cmd.go:96-136.  The errors of Exec (line 126) and of RowsAffected
    (line 130) are not reported. *)
Definition mv (d : dialect) (src dest : bytes) (ok : bool) (r : reply) (counted : bool) (h : option (list row))
  : option (list row) * outcome :=
  match src, dest with
  | [], _ => (h, Failed)
  | _, [] => (h, Failed)
  | _, _ =>
      match table_exists d ok h, h with
      | Some true, Some rows =>
          let new := match read_move d (move_text dest src) with
                     | Some (x, y) => move_rows x y rows
                     | None => None
                     end in
          let '(rows', executed) := execute new r rows in
          (Some rows', if executed then (if counted then Done else Done) else Done)
      | Some _, _ => (h, Done)
      | None, _ => (h, Failed)
      end
  end.

(** ** ls *)
Inductive status := LsPending | LsApplied | LsFailed | LsMissing.

(** The flags IncludePending, IncludeApplied, IncludeFailed, IncludeMissing, IncludeAll
    and their defaults, ls_cmd.go:120-128. *)
Record flags := { fl_pending : bool; fl_applied : bool; fl_failed : bool; fl_missing : bool; fl_all : bool }.
Definition included (fl : flags) (s : status) : bool :=
  if fl_all fl then true
  else if negb (fl_pending fl) && negb (fl_applied fl) && negb (fl_failed fl) && negb (fl_missing fl) then
    match s with LsPending | LsFailed => true | _ => false end
  else match s with
       | LsPending => fl_pending fl | LsApplied => fl_applied fl | LsFailed => fl_failed fl | LsMissing => fl_missing fl
       end.

(** Lines 196-217; [None]: the script cannot be read. *)
Definition status_of (c : config) (m : migration) : option status :=
  if negb (m_valid m) || negb (m_started m) then Some LsPending
  else if negb (m_success m) then Some LsFailed
  else if repeatable (m_name m) then
    match c_dir c (m_name m) with
    | None => None
    | Some contents =>
        if negb (beqb (checksum_of c contents) (m_checksum m)) then Some LsPending else Some LsApplied
    end
  else Some LsApplied.

(** A line of the output; the time is left out. *)
Definition line := (status * bytes)%type.

(** The main loop, lines 195-239: the lines written and whether it went through. *)
Fixpoint ls_loop (c : config) (fl : flags) (ms : list migration) : list line * bool :=
  match ms with
  | [] => ([], true)
  | m :: ms' =>
      match status_of c m with
      | None => ([], false)
      | Some s =>
          let '(ls, ok) := ls_loop c fl ms' in
          if included fl s then ((s, m_name m) :: ls, ok) else (ls, ok)
      end
  end.

(** LsCmd.Run, lines 136-278.  [ok], [r] and [r'] are the answers to the query whether
    the table exists, to the query of lines 152-167 and to that of lines 245-257; rows.Err is
    not consulted, so a broken iteration ends the list early.  The order of the missing
    scripts (line 256) is left open: [sorted] is the sorting done by the database.
    A failing write to the output is left out. *)
Definition ls (c : config) (fl : flags) (walk : list bytes) (ok : bool) (r r' : reply)
  (sorted : list bytes -> list bytes) (h : option (list row)) : list line * outcome :=
  let files := sort_and_filter walk in
  match table_exists (c_dialect c) ok h with
  | None => ([], Failed)
  | Some _ =>
      let seen :=
        match h with
        | Some rows =>
            match query_names (c_dialect c) files with
            | Some names => if is_ok r then Some (delivered r (select_rows names rows)) else None
            | None => None
            end
        | None => Some []
        end in
      match seen with
      | None => ([], Failed)
      | Some rows =>
          let '(lines, went) := ls_loop c fl (load_migrations files rows) in
          if went then
            match h with
            | Some rows =>
                if included fl LsMissing then
                  match query_names (c_dialect c) files with
                  | Some names =>
                      if is_ok r' then
                        let gone := sorted (map r_name (delete_rows names rows)) in
                        (lines ++ map (fun f => (LsMissing, f)) (match r' with RVal n => firstn n gone | _ => gone end), Done)
                      else (lines, Failed)
                  | None => (lines, Failed)
                  end
                else (lines, Done)
            | None => (lines, Done)
            end
          else (lines, Failed)
      end
  end.
