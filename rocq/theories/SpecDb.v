(** Specification of the database: a transactional store that holds the history
    table and a log of the effects of scripts.  Nothing here refers to the code of
    migrate except for the vocabulary of operations. *)
From Verif Require Import GoStr ModelHistory ModelMigrate.

(** Effect of a script on the data: complete, partial (it failed half-way outside a
    transaction), or the effect of an undo script.  The data state is the sequence of
    effects, of which every concrete database state is a function. *)
Inductive effect := Applied (f contents : bytes) | Partly (f contents : bytes) | Undone (f contents : bytes).

Record store := { data : list effect; hist : list row }.
Record db := { committed : store; working : option store }.

Definition current (s : db) : store := match working s with Some w => w | None => committed s end.
Definition update (s : db) (w : store) : db :=
  match working s with
  | Some _ => {| committed := committed s; working := Some w |}
  | None => {| committed := w; working := None |}
  end.
Definition add_effect (e : effect) (s : db) : db :=
  update s {| data := data (current s) ++ [e]; hist := hist (current s) |}.
Definition write_rows (rs : list row) (s : db) : db :=
  update s {| data := data (current s); hist := upsert_all rs (hist (current s)) |}.
Definition commit (s : db) : db :=
  match working s with
  | Some w => {| committed := w; working := None |}
  | None => s
  end.
Definition abort (s : db) : db := {| committed := committed s; working := None |}.

(** One operation with its reply.  An error reply leaves open whether the operation
    took effect, except that a lock timeout reported for a single statement or for a
    commit is definite: the server has refused. *)
Definition step (s : db) (e : event) : db :=
  let '(o, r) := e in
  match o with
  | OpBegin =>
      if is_ok r then {| committed := committed s; working := Some (committed s) |} else s
  | OpExec f c =>
      match r with
      | RErr _ false => s
      | RErr _ true => add_effect (Partly f c) s
      | _ => add_effect (Applied f c) s
      end
  | OpUpsert rows =>
      match r with
      | RErr true _ | RErr _ false => s
      | _ => write_rows rows s
      end
  | OpCommit =>
      match r with
      | RErr true _ | RErr _ false => abort s
      | _ => commit s
      end
  | OpRollback => abort s
  | OpUndo f c => match r with RErr _ false => s | _ => add_effect (Undone f c) s end
  | _ => s
  end.

Definition interp (s : db) (t : list event) : db := fold_left step t s.

(** What remains after the process (or its connection) dies at this point: the open
    transaction is lost.  A crash during an operation is the crash after that
    operation with an error reply of either kind. *)
Definition survives (s : db) : store := committed s.

Definition start (s : store) : db := {| committed := s; working := None |}.

(** State left behind by a run that performs the operations [t]. *)
Definition after (s : store) (t : list event) : store := survives (interp (start s) t).

(** [p] is a prefix of [t]. *)
Definition prefix {A} (p t : list A) : Prop := exists q, t = p ++ q.

(** A commit that took effect although the client saw an error, and a trace in which
    the program went on after that. *)
Definition ambiguous : event := (OpCommit, RErr false true).
Definition went_on (t : list event) : Prop := exists a e b, t = a ++ ambiguous :: e :: b.
