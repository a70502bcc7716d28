(** Specification of the commands touch, rm, mv and ls. *)
From Verif Require Import GoStr ModelHistory ModelMigrate SpecDb SpecMigrate ModelCommands.

(** The scripts that a run executes, in this order. *)
Definition scripts (t : list event) : list bytes :=
  flat_map (fun e => match fst e with OpExec f _ => [f] | _ => [] end) t.

(** The scripts that ls shows as pending or failed. *)
Definition shown (l : list line) : list bytes :=
  map snd (filter (fun x => match fst x with LsPending | LsFailed => true | _ => false end) l).

(** Contents of the history table; it is created empty. *)
Definition table (h : option (list row)) : list row := match h with Some rows => rows | None => [] end.

(** Histories written by the tool: by any number of commands, each of which may be killed
    at any point, and which need not have seen the table as it is. *)
Inductive written : list row -> Prop :=
| written_new : written []
| written_migrate c walk args h rs t o p s :
    written (hist s) -> migrate c walk args h rs = (t, o) -> prefix p t -> written (hist (after s p))
| written_touch c walk args rs t o p s :
    written (hist s) -> touch c walk args rs = (t, o) -> prefix p t -> written (hist (after s p))
| written_rm d files ok r counted h h' o :
    written h -> rm d files ok r counted (Some h) = (Some h', o) -> written h'
| written_mv d src dest ok r counted h h' o :
    written h -> mv d src dest ok r counted (Some h) = (Some h', o) -> written h'.

(** [h'] is [h] without the rows named in [files]. *)
Definition without (files : list bytes) (h h' : list row) : Prop :=
  forall r, In r h' <-> In r h /\ ~ In (r_name r) files.

(** The row [r] under another name. *)
Definition renamed (name : bytes) (r : row) : row :=
  {| r_name := name; r_checksum := r_checksum r; r_started := r_started r; r_success := r_success r |}.
(** [h'] is [h] with the row of [src], if there is one, renamed to [dest]. *)
Definition moved (src dest : bytes) (h h' : list row) : Prop :=
  forall r, In r h' <-> (In r h /\ r_name r <> src) \/ exists r0, In r0 h /\ r_name r0 = src /\ r = renamed dest r0.
