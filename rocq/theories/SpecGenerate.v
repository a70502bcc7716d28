(** What generate and automigrate may do with files. *)
From Verif Require Import GoStr ModelGenerate.

(** The event touches a file. *)
Definition touches_file (e : gevent) : bool :=
  match fst e with GOpen _ | GFill _ _ | GClose _ => true | _ => false end.
(** The contents of the files after the events; a failed write may leave anything, it counts
    as not having happened. *)
Definition disk_step (disk : bytes -> option bytes) (e : gevent) : bytes -> option bytes :=
  match e with
  | (GOpen f, true) => fun g => if beqb f g then Some [] else disk g
  | (GFill f b, true) => fun g => if beqb f g then Some b else disk g
  | _ => disk
  end.
Definition disk_after (disk : bytes -> option bytes) (t : list gevent) : bytes -> option bytes := fold_left disk_step t disk.
(** What was written to Stdout and to Stderr. *)
Definition printed (t : list gevent) : bytes := flat_map (fun e => match e with (GPrint b, true) => b | _ => [] end) t.
Definition reported (t : list gevent) : list bytes := flat_map (fun e => match fst e with GReport b => [b] | _ => [] end) t.
(** The contents in [files] under the name [f]. *)
Definition text_under (files : list (bytes * bytes)) (f : bytes) : option bytes :=
  match find (fun p => beqb (fst p) f) files with Some (_, b) => Some b | None => None end.
