(** Model of the names of generated files and of the directory they are written to (generate_cmd.go:155-215, 232-237).

    Simplified: [now] is the time in whole seconds since 1970 (nanoseconds are not written), for years from 0 to 9999; the files
    are created and written without errors; without -dry-run. *)
From Verif Require Import GoStr ModelSq ModelCatalog ModelDdl ModelDiff ModelDiffSql ModelStamp.

(** time.Now().UTC().Format("20060102150405"), generate_cmd.go:236. *)
Definition stamp14 (unix : Z) : bytes :=
  let '(y, m, d) := abs_date (unix / 86400 + unix_days) in
  let s := (unix mod 86400)%Z in
  ModelStamp.pad4 y ++ ModelStamp.pad2 m ++ ModelStamp.pad2 d
  ++ ModelStamp.pad2 (s / 3600) ++ ModelStamp.pad2 (s mod 3600 / 60) ++ ModelStamp.pad2 (s mod 60).
(** generate_cmd.go:234-237. *)
Definition prefix_of (given : bytes) (now : Z) : bytes := match given with [] => stamp14 now | _ => given end.

(** A call of generate: the flags -prefix, -drop-objects and -accept-warnings, the time, and the two catalogs. *)
Record run := Run { rn_given : bytes; rn_now : Z; rn_dialect : dialect; rn_src : catalog; rn_dest : catalog; rn_drop : bool; rn_accept : bool }.
Definition directory := list (bytes * list stmt).
(** os.OpenFile with O_WRONLY, O_CREATE and O_TRUNC, and ReadFrom, generate_cmd.go:198-209. *)
Fixpoint put (dir : directory) (name : bytes) (l : list stmt) : directory :=
  match dir with
  | [] => [(name, l)]
  | (n, l0) :: dir' => if beqb n name then (name, l) :: dir' else (n, l0) :: put dir' name l
  end.
(** GenerateCmd.Run, generate_cmd.go:155-215: nothing is written if there are errors, or warnings that are not accepted. *)
Definition written (flt : bytes -> bool) (r : run) : list file :=
  match results (rn_dialect r) flt (prefix_of (rn_given r) (rn_now r)) (rn_src r) (rn_dest r) (rn_drop r) with
  | Ok (files, ws) => if none ws || rn_accept r then files else []
  | _ => []
  end.
Definition generate (flt : bytes -> bool) (dir : directory) (r : run) : directory :=
  fold_left (fun dir f => put dir (fl_name f) (fl_stmts f)) (written flt r) dir.
