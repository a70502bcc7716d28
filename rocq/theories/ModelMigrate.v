(** Model of ddl/migrate_cmd.go:155-605.  A run is a function from the replies of
    the environment (database, random numbers) to the list of operations performed,
    each with its reply. *)
From Verif Require Import GoStr ModelSq SpecSql ModelHistory.

(** ** Operations *)
Inductive op :=
| OpEnsure                          (* ensureHistoryTableExists *)
| OpQuery                           (* SELECT from the history table *)
| OpBegin
| OpExec (f contents : bytes)       (* execute a migration script *)
| OpUpsert (rows : list row)        (* write history rows *)
| OpCommit
| OpRollback
| OpUndo (f contents : bytes)       (* execute an undo script *)
| OpRand (n : Z)                    (* rng.Intn(n) *)
| OpSleep (delay : Z).              (* nanoseconds *)

(** Replies: success, or an error.  [lock] says whether IsLockTimeout holds of the
    error; [applied] says whether the operation nevertheless had (for a script: some
    of) its effect, for instance because the connection broke after the server had
    done its work.  [RVal n]: success with a number; for [OpRand] the random value,
    for [OpQuery] the iteration over the rows broke off after [n] rows (rows.Next
    returns false and rows.Err is never consulted, migrate_cmd.go:234). *)
Inductive reply := ROk | RErr (lock applied : bool) | RVal (n : nat).

Definition is_ok (r : reply) : bool := match r with RErr _ _ => false | _ => true end.

Definition event := (op * reply)%type.

(** Programs: a reply stream determines the operations and the result. *)
Definition prog (A : Type) := (nat -> reply) -> list event * A.
Definition ret {A} (a : A) : prog A := fun _ => ([], a).
Definition call (o : op) : prog reply := fun rs => ([(o, rs 0)], rs 0).
Definition bind {A C} (m : prog A) (f : A -> prog C) : prog C :=
  fun rs =>
    let (t1, a) := m rs in
    let (t2, c) := f a (fun n => rs (List.length t1 + n)) in
    (t1 ++ t2, c).
Notation "'do' x <- m ;; k" := (bind m (fun x => k)) (at level 200, x name, right associativity).

(** How a command ends. *)
Inductive outcome := Done | Failed | Panicked | OutOfFuel.

(** ** Configuration *)
Record config := {
  c_dialect : dialect;
  c_skip_history : bool;
  c_max_attempts : Z;       (* after the defaults of lines 171-185 *)
  c_base_delay : Z;         (* nanoseconds *)
  c_max_delay : Z;
  c_detects_lock : bool;    (* the driver has an IsLockTimeout function *)
  c_hash : bytes -> bytes;  (* hex-encoded sha256 *)
  c_dir : bytes -> option bytes  (* contents of a file; [None] if it cannot be read *)
}.

(** The migration struct, lines 323-330. *)
Record migration := {
  m_valid : bool;
  m_name : bytes;
  m_checksum : bytes;
  m_started : bool;
  m_success : bool
}.

(** Checksum of a script: line 292 (CRLF is read as LF). *)
Definition checksum_of (c : config) (contents : bytes) : bytes :=
  c_hash c (replace2 CR LF [LF] contents).

(** ** run, lines 448-570 *)
(** Lines 364, 450: whether the batch runs in a transaction. *)
Definition is_tx (d : dialect) (queue : list migration) : bool :=
  match queue with
  | [] => false
  | m :: rest =>
      negb (match rest with [] => true | _ => false end)
      || (negb (has_suffix (m_name m) (B".txoff.sql")) && negb (dialect_eqb d MySQL))
      || has_suffix (m_name m) (B".tx.sql")
  end.

(** The row written after a script succeeded, lines 541-551. *)
Definition success_row (m : migration) : row :=
  {| r_name := m_name m; r_checksum := Some (m_checksum m); r_started := true; r_success := true |}.
(** The row written after a failure, lines 425-437. *)
Definition failure_row (m : migration) : row :=
  {| r_name := m_name m; r_checksum := Some (m_checksum m); r_started := m_started m; r_success := false |}.

Definition set_started (m : migration) : migration :=
  {| m_valid := m_valid m; m_name := m_name m; m_checksum := m_checksum m;
     m_started := true; m_success := m_success m |}.

(** Result of run: stoppedAt, the error (whether it is a lock timeout), and the batch
    with the started_at fields that the loop has set (the slice is shared). *)
Definition run_result := (Z * option bool * list migration)%type.

Definition rollback (tx : bool) : prog unit :=
  if tx then do _ <- call OpRollback ;; ret tt else ret tt.

Definition err_of (r : reply) : bool := match r with RErr l _ => l | _ => false end.

(** The loop of lines 485-556 and the commit of lines 557-568; [done] holds the
    scripts before position [i]. *)
Fixpoint run_loop (c : config) (tx : bool) (done queue : list migration) : prog run_result :=
  match queue with
  | [] =>
      let n := (Z.of_nat (List.length done) - 1)%Z in
      if tx then
        do r <- call OpCommit ;;
        ret (if is_ok r then (n, None, done) else (n, Some (err_of r), done))
      else ret (n, None, done)
  | m :: rest =>
      let i := Z.of_nat (List.length done) in
      match c_dir c (m_name m) with
      | None => do _ <- rollback tx ;; ret (i, Some false, done ++ queue)
      | Some contents =>
          let m' := set_started m in
          do r <- call (OpExec (m_name m) contents) ;;
          if is_ok r then
            if c_skip_history c then run_loop c tx (done ++ [m']) rest
            else
              do r' <- call (OpUpsert [success_row m']) ;;
              if is_ok r' then run_loop c tx (done ++ [m']) rest
              else do _ <- rollback tx ;; ret (i, Some (err_of r'), done ++ m' :: rest)
          else do _ <- rollback tx ;; ret (i, Some (err_of r), done ++ m' :: rest)
      end
  end.

Definition run (c : config) (queue : list migration) : prog run_result :=
  if is_tx (c_dialect c) queue then
    do r <- call OpBegin ;;
    if is_ok r then run_loop c true [] queue
    else ret ((-1)%Z, Some (err_of r), queue)
  else run_loop c false [] queue.

(** ** undo, lines 572-605 *)
Definition undo_name (f : bytes) : bytes :=
  trim_suffix (trim_suffix f (B".sql")) (B".txoff") ++ B".undo.sql".

Definition undo (c : config) (m : migration) : prog unit :=
  match c_dir c (undo_name (m_name m)) with
  | None => ret tt
  | Some contents => do _ <- call (OpUndo (undo_name (m_name m)) contents) ;; ret tt
  end.

(** ** runWithRetry, lines 363-446 *)
(** A single statement: lines 380-384. *)
Definition single_statement (contents : bytes) : bool :=
  let b := trim_space contents in
  (count_byte ";"%char b =? 1)
  && match hd_error (rev b) with Some x => ceqb x ";"%char | None => false end.

(** int64 arithmetic *)
Definition wrap64 (z : Z) : Z := (((z + 2 ^ 63) mod 2 ^ 64) - 2 ^ 63)%Z.
Definition second : Z := 1000000000.

(** Line 397: int(math.Exp2(float64(attempts))); from 2^63 on the conversion of
    amd64 gives the smallest integer. *)
Definition multiplier (attempts : Z) : Z :=
  if (attempts <? 63)%Z then (2 ^ attempts)%Z else (- 2 ^ 63)%Z.
(** Argument of rng.Intn in line 398. *)
Definition draw_range (c : config) (attempts : Z) : Z :=
  Z.quot (wrap64 (c_base_delay c * multiplier attempts)) second.
(** The value returned by rng.Intn(n), which lies in [0, n). *)
Definition drawn (n : Z) (r : reply) : Z :=
  match r with RVal k => (Z.of_nat k mod n)%Z | _ => 0%Z end.
(** Lines 398-403. *)
Definition delay_of (c : config) (draw : Z) : Z :=
  let delay := (draw * second)%Z in
  if (delay <? c_base_delay c)%Z then c_base_delay c
  else if (c_max_delay c <? delay)%Z then c_max_delay c
  else delay.

(** The loop of lines 389-445.  [fuel] bounds the number of rounds. *)
Fixpoint retry (fuel : nat) (c : config) (retryable : bool) (attempts : Z)
  (queue : list migration) : prog outcome :=
  match fuel with
  | O => ret OutOfFuel
  | S fuel' =>
      let attempts := (attempts + 1)%Z in
      do res <- run c queue ;;
      let '(stopped, err, queue) := res in
      match err with
      | None => ret Done
      | Some lock =>
          if retryable && c_detects_lock c && lock then
            if (c_max_attempts c <=? attempts)%Z then
              (* queue[stoppedAt], line 394 *)
              ret (if (stopped <? 0)%Z then Panicked else Failed)
            else
              let n := draw_range c attempts in
              if (n <=? 0)%Z then ret Panicked (* rng.Intn *)
              else
                do r <- call (OpRand n) ;;
                if (stopped <? 0)%Z then ret Panicked (* queue[stoppedAt], line 404 *)
                else
                  do _ <- call (OpSleep (delay_of c (drawn n r))) ;;
                  retry fuel' c retryable attempts queue
          else
            do _ <- (match queue with
                     | m :: _ => if retryable then ret tt else undo c m
                     | [] => ret tt
                     end) ;;
            if (stopped <? 0)%Z then ret Failed
            else if c_skip_history c then ret Failed
            else
              let rows := map failure_row (firstn (S (Z.to_nat stopped)) queue) in
              do _ <- call (OpUpsert rows) ;;
              ret Failed
      end
  end.

Definition run_with_retry (c : config) (queue : list migration) : prog outcome :=
  let tx := is_tx (c_dialect c) queue in
  let fuel := S (Z.to_nat (c_max_attempts c)) in
  if tx then retry fuel c true 0 queue
  else
    match queue with
    | m :: _ =>
        match c_dir c (m_name m) with
        | None => ret Failed
        | Some contents => retry fuel c (single_statement contents) 0 queue
        end
    | [] => ret Done
    end.

(** ** Run, lines 155-321 *)
(** The file list: lines 197-208.  [walk] is the result of walkDir (all files). *)
Definition selected_files (c : config) (walk args : list bytes) : option (list bytes) :=
  match args with
  | [] => Some (sort_and_filter walk)
  | _ =>
      if forallb (fun f => match c_dir c f with Some _ => true | None => false end) args
      then Some (sort_and_filter args) else None
  end.

Definition fresh (f : bytes) : migration :=
  {| m_valid := false; m_name := f; m_checksum := []; m_started := false; m_success := false |}.
Definition of_row (r : row) : migration :=
  {| m_valid := true; m_name := r_name r;
     m_checksum := match r_checksum r with Some x => x | None => [] end;
     m_started := r_started r; m_success := r_success r |}.

(** migrations[i] after reading the history, lines 209-252: cache maps a name to its
    last position, so an earlier duplicate stays fresh. *)
Fixpoint load_migrations (files : list bytes) (rows : list row) : list migration :=
  match files with
  | [] => []
  | f :: files' =>
      (if bmem f files' then fresh f
       else match lookup f (rev rows) with Some r => of_row r | None => fresh f end)
      :: load_migrations files' rows
  end.

(** Lines 276-297: skip, fail or keep a script. *)
Inductive decision := Skip | Unreadable | Keep (m : migration).
Definition with_checksum (m : migration) (h : bytes) : migration :=
  {| m_valid := m_valid m; m_name := m_name m; m_checksum := h;
     m_started := m_started m; m_success := m_success m |}.
Definition decide (c : config) (m : migration) : decision :=
  if repeatable (m_name m) then
    match c_dir c (m_name m) with
    | None => Unreadable
    | Some contents =>
        let h := checksum_of c contents in
        if beqb h (m_checksum m) && m_valid m && m_success m then Skip
        else Keep (with_checksum m h)
    end
  else if m_valid m && m_success m then Skip
  else Keep m.

(** Lines 302-306. *)
Definition special_suffix (f : bytes) : bool :=
  has_suffix f (B".tx.sql") || has_suffix f (B".txoff.sql").
Definition must_flush (d : dialect) (queue : list migration) (m : migration) : bool :=
  match queue with
  | [] => false
  | q :: _ => dialect_eqb d MySQL || special_suffix (m_name q) || special_suffix (m_name m)
  end.

(** The loop of lines 275-318. *)
Fixpoint drive (c : config) (ms queue : list migration) : prog outcome :=
  match ms with
  | [] => match queue with [] => ret Done | _ => run_with_retry c queue end
  | m :: ms' =>
      match decide c m with
      | Skip => drive c ms' queue
      | Unreadable => ret Failed
      | Keep m =>
          if must_flush (c_dialect c) queue m then
            do r <- run_with_retry c queue ;;
            match r with
            | Done => drive c ms' [m]
            | _ => ret r
            end
          else drive c ms' (queue ++ [m])
      end
  end.

(** The rows seen by the program. *)
Definition delivered (r : reply) (rows : list row) : list row :=
  match r with RVal n => firstn n rows | _ => rows end.

(** MigrateCmd.Run.  [h] is the committed history table at the time of the query.
    The session settings of lines 255-273 are treated in ModelSession.v. *)
Definition migrate (c : config) (walk args : list bytes) (h : list row) : prog outcome :=
  match selected_files c walk args with
  | None => ret Failed
  | Some files =>
      if c_skip_history c then drive c (map fresh files) []
      else
        do r <- call OpEnsure ;;
        if is_ok r then
          match query_names (c_dialect c) files with
          | None => ret Failed
          | Some names =>
              do r' <- call OpQuery ;;
              if is_ok r' then drive c (load_migrations files (delivered r' (select_rows names h))) []
              else ret Failed
          end
        else ret Failed
  end.
