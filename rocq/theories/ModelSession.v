(** Model of the temporary session settings: setSessionValue, load_cmd.go:1086-1118, and its
    callers MigrateCmd.Run (migrate_cmd.go:256-330), LoadCmd.Run (load_cmd.go:193-285),
    LoadCmd.loadSQL (load_cmd.go:287-323) and LoadCmd.loadCSV (load_cmd.go:346-540). *)
From Verif Require Import GoStr ModelSq ModelDdl ModelHistory ModelMigrate.

(** ** The session *)
Inductive sevent :=
| SGet (ok : bool)              (* the getter *)
| SSet (v : bytes) (ok : bool)  (* the setter *)
| SBegin | SCommit (ok : bool) | SRollback.
(** [w_var] is the value of the variable, [w_tx] its value when the open transaction began,
    [w_dead] whether that transaction has failed (Postgres), [w_log] the calls so far, latest
    first. *)
Record world := World { w_var : bytes; w_tx : option bytes; w_dead : bool; w_log : list sevent }.

Section Session.
(** [fails n] says whether the call after [n] others fails (unless it must). *)
Context (d : dialect) (fails : nat -> bool).
Definition fails_now (w : world) : bool := w_dead w || fails (List.length (w_log w)).
(** After a failed call a transaction of Postgres is dead. *)
Definition dead_after (w : world) : bool :=
  w_dead w || (dialect_eqb d Postgres && match w_tx w with Some _ => true | None => false end).
Definition do_get (w : world) : option bytes * world :=
  if fails_now w then (None, World (w_var w) (w_tx w) (dead_after w) (SGet false :: w_log w))
  else (Some (w_var w), World (w_var w) (w_tx w) (w_dead w) (SGet true :: w_log w)).
(** PRAGMA foreign_keys does nothing in a transaction of SQLite. *)
Definition set_to (v : bytes) (w : world) : bytes := match d, w_tx w with SQLite, Some _ => w_var w | _, _ => v end.
Definition do_set (v : bytes) (w : world) : bool * world :=
  if fails_now w then (false, World (w_var w) (w_tx w) (dead_after w) (SSet v false :: w_log w))
  else (true, World (set_to v w) (w_tx w) (w_dead w) (SSet v true :: w_log w)).
Definition do_begin (w : world) : world := World (w_var w) (Some (w_var w)) false (SBegin :: w_log w).
(** What was set in a transaction is undone with it in Postgres only. *)
Definition undone (w : world) : bytes := match w_tx w, d with Some v, Postgres => v | _, _ => w_var w end.
Definition do_rollback (w : world) : world :=
  match w_tx w with
  | Some _ => World (undone w) None false (SRollback :: w_log w)
  | None => w                                                  (* sql.ErrTxDone *)
  end.
Definition do_commit (w : world) : bool * world :=
  if fails_now w then (false, World (undone w) None false (SCommit false :: w_log w))
  else (true, World (w_var w) None false (SCommit true :: w_log w)).

(** ** setSessionValue *)
(** The restoring function: nothing to do, or the old value and whether it was called. *)
Inductive restorer := RNothing | RRestore (old : bytes) (done : bool).
Definition set_session (value : bytes) (w : world) : option restorer * world :=
  let (old, w1) := do_get w in
  match old with
  | None => (None, w1)
  | Some old =>
      if beqb old value then (Some RNothing, w1)
      else
        let (ok, w2) := do_set value w1 in
        if ok then (Some (RRestore old false), w2) else (None, w2)
  end.
Definition restore (r : restorer) (w : world) : bool * restorer * world :=
  match r with
  | RNothing => (true, r, w)
  | RRestore old done => if done then (true, r, w) else let (ok, w') := do_set old w in (ok, RRestore old true, w')
  end.

(** ** The callers *)
(** What happens between setting and restoring; deferred calls run after a panic as well. *)
Definition body := world -> outcome * world.
(** On a connection: migrate, LoadCmd.Run for SQLite, loadSQL for constraints.sql in MySQL. *)
Definition with_setting (value : bytes) (b : body) (w : world) : outcome * world :=
  match set_session value w with
  | (None, w1) => (Failed, w1)
  | (Some r, w1) =>
      let (o, w2) := b w1 in
      match o with
      | Done =>
          let '(ok, r', w3) := restore r w2 in
          let '(_, _, w4) := restore r' w3 in                  (* deferred *)
          (if ok then Done else Failed, w4)
      | _ => let '(_, _, w3) := restore r w2 in (o, w3)        (* deferred *)
      end
  end.
(** In a transaction: loadCSV for Postgres and MySQL.  [b0] is what precedes the setting. *)
Definition load_csv (value : bytes) (b0 b : body) (w : world) : outcome * world :=
  let w0 := do_begin w in
  let (o0, w1) := b0 w0 in
  match o0 with
  | Done =>
      match set_session value w1 with
      | (None, w2) => (Failed, do_rollback w2)
      | (Some r, w2) =>
          let (o, w3) := b w2 in
          match o with
          | Done =>
              let '(ok, r', w4) := restore r w3 in
              if ok then
                let (ok', w5) := do_commit w4 in
                let '(_, _, w6) := restore r' w5 in
                (if ok' then Done else Failed, do_rollback w6)
              else
                let '(_, _, w5) := restore r' w4 in (Failed, do_rollback w5)
          | _ => let '(_, _, w4) := restore r w3 in (o, do_rollback w4)
          end
      end
  | _ => (o0, do_rollback w1)
  end.
(** Any number of calls of the restoring function. *)
Fixpoint restore_times (n : nat) (r : restorer) (w : world) : restorer * world :=
  match n with
  | O => (r, w)
  | S n' => let '(_, r', w') := restore r w in restore_times n' r' w'
  end.
End Session.

(** ** The statements *)
(** strings.ReplaceAll(setter, "%s", EscapeQuote(value, '\'')) for a setter with one %s. *)
Definition set_text (setter value : bytes) : bytes :=
  match cut (B"%s") setter with Some (a, b) => a ++ escape_quote squote value ++ b | None => setter end.
(** migrate_cmd.go:265-271 and load_cmd.go:195, 295, 402, 406. *)
Definition lock_setter (d : dialect) : option bytes :=
  match d with
  | Postgres => Some (B"SET lock_timeout = %s")
  | MySQL => Some (B"SET lock_wait_timeout = %s")
  | SQLServer => Some (B"SET LOCK_TIMEOUT %s")
  | _ => None
  end.
Definition load_setter (d : dialect) : option bytes :=
  match d with
  | SQLite => Some (B"PRAGMA foreign_keys = %s")
  | Postgres => Some (B"SET timezone = '%s'")
  | MySQL => Some (B"SET foreign_key_checks = %s")
  | _ => None
  end.
