(** How a command line is written, after the documentation of Go's flag
    package and sqddl.md, "Global flags". *)
From Verif Require Import GoStr.

(** A flag with a value: -name=value, or -name value unless the flag is a
    switch, or -name for a switch that is turned on; with one or two minus
    signs. *)
Definition plain_name (n : bytes) : Prop := n <> [] /\ ~ In "="%char n /\ (forall r, n <> "-"%char :: r).
Definition dashes (d : bytes) : Prop := d = B"-" \/ d = B"--".
Definition written (switch : bytes -> Prop) (name value : bytes) (ws : list bytes) : Prop :=
  plain_name name /\ exists d, dashes d /\
    (ws = [d ++ name ++ B"=" ++ value] \/
     (~ switch name /\ ws = [d ++ name; value]) \/
     (switch name /\ value = B"true" /\ ws = [d ++ name])).
Fixpoint all_written (switch : bytes -> Prop) (l : list (bytes * bytes)) (ws : list bytes) : Prop :=
  match l with
  | [] => ws = []
  | (n, v) :: l' => exists a b, ws = a ++ b /\ written switch n v a /\ all_written switch l' b
  end.
(** The arguments after the flags: none, or the first does not look like a
    flag, or they are set off by two minus signs. *)
Definition looks_like_flag (s : bytes) : Prop := exists c r, s = "-"%char :: c :: r.
Definition arguments (files ws : list bytes) : Prop :=
  ws = B"--" :: files \/ (ws = files /\ match files with [] => True | f :: _ => ~ looks_like_flag f end).

(** A command line with which the user asks for help. *)
Definition help_word (s : bytes) : Prop :=
  exists d n, dashes d /\ (n = B"h" \/ n = B"help") /\ (s = d ++ n \/ exists v, s = d ++ n ++ B"=" ++ v).
