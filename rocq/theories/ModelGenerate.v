(** Model of GenerateCmd.Run, generate_cmd.go:157-215, and of AutomigrateCmd.Run,
    automigrate_cmd.go:160-297, from the point on where the files and warnings have been
    computed (ModelDiffSql.v).  Reading the two catalogs is not modelled. *)
From Verif Require Import GoStr ModelSq ModelDdl ModelHistory ModelMigrate ModelDiff.

(** ** Input and output *)
Inductive gop :=
| GPrint (b : bytes)            (* to Stdout *)
| GReport (b : bytes)           (* to Stderr; errors are not looked at *)
| GOpen (f : bytes)             (* create or truncate *)
| GFill (f b : bytes)           (* write the contents *)
| GClose (f : bytes).
Definition gevent := (gop * bool)%type.
(** The stream says which operations succeed. *)
Definition gprog (A : Type) := (nat -> bool) -> list gevent * A.
Definition gret {A} (a : A) : gprog A := fun _ => ([], a).
Definition gcall (o : gop) : gprog bool := fun rs => ([(o, rs 0)], rs 0).
Definition gbind {A C} (m : gprog A) (f : A -> gprog C) : gprog C :=
  fun rs =>
    let (t1, a) := m rs in
    let (t2, c) := f a (fun n => rs (List.length t1 + n)) in
    (t1 ++ t2, c).
(** The operation and then, if it succeeded, the rest. *)
Definition gtry (o : gop) (k : gprog outcome) : gprog outcome :=
  gbind (gcall o) (fun ok => if ok then k else gret Failed).
Definition gtry_if (b : bool) (o : gop) (k : gprog outcome) : gprog outcome := if b then gtry o k else k.
Fixpoint greport (l : list bytes) (k : gprog outcome) : gprog outcome :=
  match l with
  | [] => k
  | w :: l' => gbind (gcall (GReport (w ++ [LF]))) (fun _ => greport l' k)
  end.

(** The files with their contents, and the warnings. *)
Definition outputs := result (list (bytes * bytes) * list bytes).

(** ** generate *)
(** The loop of generate_cmd.go:175-214 for a dry run.  [dir] is what filepath.Join puts in
    front of the name (for names without slashes), [headers] says whether the source
    catalog has schemas (not nil). *)
Fixpoint show_files (dir : bytes) (headers : bool) (i : nat) (files : list (bytes * bytes)) : gprog outcome :=
  match files with
  | [] => gret Done
  | (n, text) :: rest =>
      if has_suffix (dir ++ n) (B".undo.sql") then show_files dir headers (S i) rest
      else
        gtry_if (0 <? i) (GPrint [LF])
          (gtry_if headers (GPrint (B"-- " ++ (dir ++ n) ++ [LF]))
             (gtry (GPrint text) (show_files dir headers (S i) rest)))
  end.
(** The same loop otherwise. *)
Fixpoint write_files (dir : bytes) (files : list (bytes * bytes)) : gprog outcome :=
  match files with
  | [] => gret Done
  | (n, text) :: rest =>
      gtry (GOpen (dir ++ n)) (gtry (GFill (dir ++ n) text) (gtry (GClose (dir ++ n))
        (greport [dir ++ n] (write_files dir rest))))
  end.
Definition generate (accept dry headers : bool) (dir : bytes) (r : outputs) : gprog outcome :=
  match r with
  | Err => gret Failed
  | Panic => gret Panicked
  | Ok (files, ws) =>
      (* generate_cmd.go:162-169 *)
      if negb (none ws) && negb accept && negb dry then gret Failed
      else greport ws (if dry then show_files dir headers 0 files else write_files dir files)
  end.

(** ** automigrate *)
(** automigrate_cmd.go:248-268. *)
Fixpoint show_scripts (many : bool) (i : nat) (files : list (bytes * bytes)) : gprog outcome :=
  match files with
  | [] => gret Done
  | (n, text) :: rest =>
      if has_suffix n (B".undo.sql") then show_scripts many (S i) rest
      else
        gtry_if (0 <? i) (GPrint [LF])
          (gtry_if many (GPrint (B"-- " ++ n ++ [LF]))
             (gtry (GPrint text) (show_scripts many (S i) rest)))
  end.
(** The map of automigrate_cmd.go:271-277: the last file of a name counts. *)
Fixpoint contents (files : list (bytes * bytes)) (n : bytes) : option bytes :=
  match files with
  | [] => None
  | (m, text) :: rest =>
      match contents rest n with
      | Some x => Some x
      | None => if beqb m n then Some text else None
      end
  end.
(** The MigrateCmd of automigrate_cmd.go:278-291. *)
Definition auto_config (c : config) (files : list (bytes * bytes)) : config :=
  {| c_dialect := c_dialect c; c_skip_history := true; c_max_attempts := c_max_attempts c;
     c_base_delay := c_base_delay c; c_max_delay := c_max_delay c; c_detects_lock := c_detects_lock c;
     c_hash := c_hash c; c_dir := contents files |}.
(** Input and output first, then the events of the migration. *)
Definition automigrate (accept dry : bool) (c : config) (r : outputs) (os : nat -> bool) (rs : nat -> reply)
  : list gevent * list event * outcome :=
  match r with
  | Err => ([], [], Failed)
  | Panic => ([], [], Panicked)
  | Ok (files, ws) =>
      if none files then ([], [], Done)
      else if negb (none ws) && negb accept && negb dry then ([], [], Failed)
      else if dry then
        let (t, o) := greport ws (show_scripts (1 <? List.length files) 0 files) os in (t, [], o)
      else
        let (t, _) := greport ws (gret Done) os in
        let (t', o) := migrate (auto_config c files) [] (map fst files) [] rs in (t, t', o)
  end.
