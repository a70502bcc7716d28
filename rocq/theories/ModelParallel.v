(** Model of loading several CSV files: the goroutines and transactions of loadZip
    (load_cmd.go:631-689), loadTgz (load_cmd.go:841-866) and loadDir (load_cmd.go:922-967), with
    loadCSV (load_cmd.go:346-540) as the sequence of its calls: begin, the INSERT statements, commit,
    and a rollback after a failure.

    Simplified: a connection of the database has at most one transaction; a statement that fails
    has no effect; settings of the session are left out (ModelSession.v has them). *)
From Coq Require Import Arith.
From Verif Require Import GoStr.

(** The rows that one INSERT statement writes: the file and the number of the statement. *)
Definition write := (nat * nat)%type.

(** ** How the files are loaded *)
Inductive source := ADirectorySource | AZipSource | ATgzSource.
Inductive mode :=
| OwnConnection      (* cmd.DB.BeginTx in a goroutine: a connection of its own, load_cmd.go:932-946 *)
| OneConnection      (* conn.BeginTx in a goroutine, load_cmd.go:652-668 *)
| OneByOne.          (* conn.BeginTx, one file after the other, load_cmd.go:669-682, 842-866, 947-960 *)
Definition mode_of (s : source) (d : dialect) : mode :=
  match s with
  | ATgzSource => OneByOne
  | ADirectorySource => if dialect_eqb d SQLite then OneByOne else OwnConnection
  | AZipSource => if dialect_eqb d SQLite then OneByOne else OneConnection
  end.

(** What happens when a transaction is begun on a connection that has one (database/sql passes it to
    the driver): nothing, the old one is committed (MySQL), or an error (lib/pq). *)
Inductive reaction := Joins | Commits | Refuses.

(** ** The state *)
(** A goroutine: not begun, with the statements still to come, committed, or given up. *)
Inductive worker := Waiting | Working (todo : list write) | Loaded | Failed.
Record state := State {
  s_workers : nat -> worker;
  s_open : nat -> option (list write);    (* the transaction of each connection *)
  s_committed : list write
}.
Definition set {A} (f : nat -> A) (i : nat) (a : A) : nat -> A := fun j => if Nat.eqb j i then a else f j.

(** What happens next: goroutine [i] makes its next call, which succeeds or fails (a commit that
    fails may have been done); or the context is cancelled, and database/sql rolls back the
    transaction of [i]. *)
Inductive event := Succeeds (i : nat) | Fails (i : nat) (done : bool) | Cancelled (i : nat).

Section Run.
Context (m : mode) (r : reaction) (files : nat -> list write) (n : nat).
(** The connection of the transaction of file [i]. *)
Definition connection (i : nat) : nat := match m with OwnConnection => i | _ => 0 end.
Definition is_loaded (w : worker) : bool := match w with Loaded => true | _ => false end.
(** Whether it is the turn of file [i]. *)
Definition may_begin (s : state) (i : nat) : bool :=
  (i <? n) && match m with OneByOne => forallb (fun j => is_loaded (s_workers s j)) (seq 0 i) | _ => true end.
Definition become (s : state) (i : nat) (w : worker) : state := State (set (s_workers s) i w) (s_open s) (s_committed s).
Definition with_open (s : state) (k : nat) (o : option (list write)) (c : list write) : state :=
  State (s_workers s) (set (s_open s) k o) c.
Definition begin_tx (s : state) (i : nat) : state :=
  let k := connection i in
  match s_open s k with
  | None => become (with_open s k (Some []) (s_committed s)) i (Working (files i))
  | Some buf =>
      match r with
      | Joins => become s i (Working (files i))
      | Commits => become (with_open s k (Some []) (s_committed s ++ buf)) i (Working (files i))
      | Refuses => become s i Failed
      end
  end.
(** A statement outside of a transaction is committed at once. *)
Definition exec (s : state) (i : nat) (w : write) (todo : list write) : state :=
  let k := connection i in
  become (match s_open s k with
          | Some buf => with_open s k (Some (buf ++ [w])) (s_committed s)
          | None => with_open s k None (s_committed s ++ [w])
          end) i (Working todo).
Definition commit (s : state) (i : nat) : state :=
  let k := connection i in
  match s_open s k with Some buf => with_open s k None (s_committed s ++ buf) | None => s end.
Definition rollback (s : state) (i : nat) : state := with_open s (connection i) None (s_committed s).
Definition step (s : state) (e : event) : state :=
  match e with
  | Succeeds i =>
      match s_workers s i with
      | Waiting => if may_begin s i then begin_tx s i else s
      | Working (w :: todo) => exec s i w todo
      | Working [] => become (commit s i) i Loaded
      | _ => s
      end
  | Fails i done =>
      match s_workers s i with
      | Waiting => if may_begin s i then become s i Failed else s
      | Working [] => become (if done then commit s i else rollback s i) i Failed
      | Working _ => become (rollback s i) i Failed
      | _ => s
      end
  | Cancelled i =>
      match s_workers s i with
      | Waiting => if may_begin s i then become s i Failed else s
      | Working _ => become (rollback s i) i Failed
      | _ => s
      end
  end.
(** Before the files are loaded (only their rows are in the model), and after some events. *)
Definition start : state := State (fun _ => Waiting) (fun _ => None) [].
Definition after_events (es : list event) : state := fold_left step es start.
End Run.
