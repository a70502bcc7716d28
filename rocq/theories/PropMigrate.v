(** Properties C14-C23, C29, C30 and C52-C55: the migrate command. *)
From Verif Require Import GoStr GoStrFacts ModelSq SpecSql SqFacts ModelHistory HistoryFacts.
From Verif Require Import ModelMigrate SpecDb SpecMigrate MigrateFacts MigrateTrace MigrateBatch MigrateGroups MigratePlan MigrateSafety MigrateLive MigrateRetry MigrateCrash MigrateWitness.

(** ** C14 *)
Theorem C14_selection : forall files, exists regular repeat,
  sort_and_filter files = regular ++ repeat
  /\ picks (fun f => is_script f /\ ~ is_repeatable f) files regular
  /\ picks (fun f => is_script f /\ is_repeatable f) files repeat.
Proof. exact selection_documented. Qed.
Print Assumptions C14_selection.

(** migrate selects from its arguments, or from the whole directory without any, and
    executes nothing else. *)
Theorem C14_migrate : forall c walk args h rs t o f x r,
  migrate c walk args h rs = (t, o) -> In (OpExec f x, r) t ->
  is_script f /\ In f (match args with [] => walk | _ => args end) /\ c_dir c f = Some x.
Proof. exact executes_selected. Qed.
Print Assumptions C14_migrate.

Example C14_example : sort_and_filter
  (map B ["repeatable/v.sql"; "1.sql"; "1.undo.sql"; "schema.sql"; "old/indexes.sql"; "my_schema.sql"; "readme.md"; "a/repeatable/b.sql"]%string)
  = map B ["1.sql"; "my_schema.sql"; "a/repeatable/b.sql"; "repeatable/v.sql"]%string.
Proof. vm_compute. reflexivity. Qed.

(** ** C15: for every run and every point [p] at which it may be killed *)
Theorem C15_success_is_committed : forall c walk args s rs t o p,
  migrate c walk args (hist s) rs = (t, o) -> prefix p t ->
  exists new, data (after s p) = data s ++ new /\
  forall r, In r (hist (after s p)) -> r_success r = true ->
    In r (hist s) \/ exists y, c_dir c (r_name r) = Some y /\ In (Applied (r_name r) y) new
                      /\ (is_repeatable (r_name r) -> r_checksum r = Some (c_hash c (lf_only y))).
Proof. exact migrate_backed. Qed.
Print Assumptions C15_success_is_committed.

(** The fourth script fails: the scripts before it are recorded and committed. *)
Example C15_example :
  let t := fst (migrate shop shop_files [] [] (replies [ROk; ROk; ROk; ROk; ROk; ROk; ROk; ROk; ROk; ROk; ROk; RErr false true])) in
  map r_name (filter r_success (hist (after empty t))) = map B ["1.sql"; "2.sql"; "3.txoff.sql"]%string
  /\ data (after empty t) = [Applied (B"1.sql") (B"CREATE TABLE a ();"); Applied (B"2.sql") (B"CREATE TABLE b ();");
                             Applied (B"3.txoff.sql") (B"VACUUM; VACUUM;")].
Proof. vm_compute. split; reflexivity. Qed.

(** ** C16 *)
(** One batch: its effects are there, all of them, exactly from an effective commit on. *)
Theorem C16_batch : forall c q rs t o s p,
  is_tx (c_dialect c) q = true -> run_with_retry c q rs = (t, o) -> prefix p t ->
  ((forall r, In (OpCommit, r) p -> took_effect r = false) ->
     data (after s p) = data s /\
     forall r, In r (hist (after s p)) -> r_success r = true -> In r (hist s))
  /\ ((exists r, In (OpCommit, r) p /\ took_effect r = true) ->
       data (after s p) = data s ++ map (fun m => Applied (m_name m) (contents_of c (m_name m))) q).
Proof. exact batch_atomic. Qed.
Print Assumptions C16_batch.

(** Any run: at every point the effects are those of whole groups of the documented
    grouping, and possibly of one script that does not run in a transaction. *)
Theorem C16_whole_groups : forall c walk args files s rs t o p,
  migrate c walk args (hist s) rs = (t, o) -> selected_files c walk args = Some files -> prefix p t ->
  exists todo gs k done rest new tail,
    subseq todo files /\ grouping (c_dialect c) todo gs
    /\ done = concat (firstn k gs) /\ done ++ rest = todo
    /\ data (after s p) = data s ++ new ++ tail /\ in_order c done new
    /\ (Forall no_lock p -> each_once c done new)
    /\ (tail = [] \/ exists f rest', rest = f :: rest' /\ ~ in_transaction (c_dialect c) f /\ Forall (effect_about c f) tail).
Proof. exact run_prefix. Qed.
Print Assumptions C16_whole_groups.

(** A run whose history query is understood by the database: each documented group of
    pending scripts is applied as a whole, or has no effect and no success row. *)
Theorem C16_all_or_nothing : forall c walk args files s pend gs rs t o p g,
  clean c walk args files -> NoDup (map r_name (hist s)) -> pending c (hist s) files pend ->
  grouping (c_dialect c) pend gs -> migrate c walk args (hist s) rs = (t, o) -> full_read t -> prefix p t ->
  In g gs -> Forall (in_transaction (c_dialect c)) g ->
  exists new, data (after s p) = data s ++ new /\
  ((forall f, In f g -> exists x, c_dir c f = Some x /\ In (Applied f x) new)
   \/ ((forall f e, In f g -> In e new -> ~ effect_of f e)
       /\ forall r, In r (hist (after s p)) -> In (r_name r) g -> r_success r = true -> In r (hist s))).
Proof. exact run_atomic_group. Qed.
Print Assumptions C16_all_or_nothing.

(** The hypotheses of the last theorem are met by a directory with five scripts ... *)
Example C16_hypotheses : clean shop shop_files [] shop_files /\ NoDup (map r_name (hist empty))
  /\ pending shop (hist empty) shop_files shop_files
  /\ grouping (c_dialect shop) shop_files
       [map B ["1.sql"; "2.sql"]%string; [B"3.txoff.sql"]; [B"4.tx.sql"]; [B"repeatable/v.sql"]]
  /\ Forall (in_transaction (c_dialect shop)) (map B ["1.sql"; "2.sql"]%string).
Proof.
  split; [exact shop_clean|]. split; [constructor|]. split; [exact shop_pending|]. split; [exact shop_grouping|].
  repeat (constructor; [apply in_tx_compute; reflexivity|]). constructor.
Qed.
(** ... and when the second of them fails, the first one has left nothing behind. *)
Example C16_example :
  let t := fst (migrate shop shop_files [] [] (replies [ROk; ROk; ROk; ROk; ROk; RErr false true])) in
  after empty t = {| data := []; hist := map (fun f => {| r_name := f; r_checksum := Some []; r_started := true; r_success := false |})
                                           (map B ["1.sql"; "2.sql"]%string) |}
  /\ full_read t.
Proof.
  vm_compute. split; [reflexivity|]. intros n Hi. repeat (destruct Hi as [Hi|Hi]; [discriminate|]). exact Hi.
Qed.

(** ** C17 *)
Theorem C17_refuted_duplicate_argument : exists s, runs_again s.
Proof. exists one_done. exact again_duplicate. Qed.
Print Assumptions C17_refuted_duplicate_argument.
Theorem C17_refuted_quote_in_name : exists s, runs_again s /\ exists r, hist s = [r] /\ In "'"%char (r_name r).
Proof.
  exists quoted_done. split; [exact again_quoted|]. eexists. split; [reflexivity|]. cbn. auto.
Qed.
Print Assumptions C17_refuted_quote_in_name.
(** The connection breaks while the rows of the history query are read. *)
Theorem C17_refuted_truncated_read : exists c walk h t o f x r n row,
  In row h /\ r_name row = f /\ r_success row = true /\ clean c walk [] [f]
  /\ migrate c walk [] h (replies [ROk; RVal n]) = (t, o) /\ In (OpExec f x, r) t.
Proof.
  exists one, [B"1.sql"], (hist one_done). eexists _, _, (B"1.sql"), (B"SELECT 1"), ROk, 0, (applied_row (B"1.sql")).
  split; [left; reflexivity|]. split; [reflexivity|]. split; [reflexivity|]. split; [|split; [vm_compute; reflexivity|vm_compute; auto 10]].
  constructor; [reflexivity|repeat constructor; intros []|constructor; [apply plain_compute; reflexivity|constructor]
               |constructor; [vm_compute; discriminate|constructor]|discriminate].
Qed.
Print Assumptions C17_refuted_truncated_read.

(** Any sequence of runs, each possibly killed, in any directories; missing from the
    claim: file names given twice, names that contain two quotes followed by a byte or
    (MySQL) a backslash, and history reads that break off. *)
Theorem C17_never_again_partial : forall s evs s' r,
  runs_seq s evs s' -> NoDup (map r_name (hist s)) ->
  In r (hist s) -> r_success r = true -> ~ is_repeatable (r_name r) ->
  (forall x rep, ~ In (OpExec (r_name r) x, rep) evs) /\ In r (hist s').
Proof. exact never_again. Qed.
Print Assumptions C17_never_again_partial.

(** A second run after the first script of [shop] has been applied. *)
Example C17_example :
  let h := [applied_row (B"1.sql")] in
  map fst (fst (migrate shop shop_files [] h (replies [ROk; ROk; ROk; RErr false true])))
  = [OpEnsure; OpQuery; OpBegin; OpExec (B"2.sql") (B"CREATE TABLE b ();"); OpRollback;
     OpUpsert [{| r_name := B"2.sql"; r_checksum := Some []; r_started := true; r_success := false |}]].
Proof. vm_compute. reflexivity. Qed.

(** ** C18 *)
Theorem C18_refuted_quote_in_name : exists c walk args s rs t o f x r,
  migrate c walk args (hist s) rs = (t, o) /\ all_ok t /\ is_repeatable f /\ up_to_date c (hist s) f
  /\ In (OpExec f x, r) t.
Proof. exact unchanged_runs. Qed.
Print Assumptions C18_refuted_quote_in_name.

(** With clean inputs (see C17) a script is executed only if it is not up to date, and
    a run that succeeds has executed every script that was not. *)
Theorem C18_executed_iff_changed_partial : forall c walk args files s rs t o f,
  clean c walk args files -> c_skip_history c = false -> NoDup (map r_name (hist s)) ->
  migrate c walk args (hist s) rs = (t, o) -> full_read t -> In f files ->
  ((exists x r, In (OpExec f x, r) t) -> ~ up_to_date c (hist s) f)
  /\ (o = Done -> ~ up_to_date c (hist s) f -> exists x r, c_dir c f = Some x /\ In (OpExec f x, r) t).
Proof. exact executed_iff_changed. Qed.
Print Assumptions C18_executed_iff_changed_partial.

Definition view_row (sum : bytes) : row :=
  {| r_name := B"repeatable/v.sql"; r_checksum := Some sum; r_started := true; r_success := true |}.
Definition view_config (contents : bytes) : config := demo Postgres [(B"repeatable/v.sql", contents)].
(** CRLF does not count as a change, another text does. *)
Example C18_unchanged :
  map fst (fst (migrate (view_config (B"SELECT" ++ [CR; LF] ++ B"1")) [B"repeatable/v.sql"] []
    [view_row (B"hSELECT" ++ [LF] ++ B"1")] (replies []))) = [OpEnsure; OpQuery].
Proof. vm_compute. reflexivity. Qed.
Example C18_changed :
  existsb (is_exec (B"repeatable/v.sql")) (fst (migrate (view_config (B"SELECT 2")) [B"repeatable/v.sql"] []
    [view_row (B"hSELECT 1")] (replies []))) = true.
Proof. vm_compute. reflexivity. Qed.

(** ** C19 *)
(** Any run: after a script has failed with anything but a lock timeout that is
    retried, nothing is executed and the run does not succeed. *)
Theorem C19_stops : forall c walk args h rs t o a f x l ap b,
  migrate c walk args h rs = (t, o) -> t = a ++ (OpExec f x, RErr l ap) :: b ->
  l = false \/ c_detects_lock c = false \/ ~ may_retry c f x -> no_exec b /\ o <> Done.
Proof. exact stops_at_failure. Qed.
Print Assumptions C19_stops.

(** At every point the scripts applied are a prefix of the pending list, in its order;
    the list of an arbitrary run is treated by [C16_whole_groups]. *)
Theorem C19_prefix : forall c walk args files s pend gs rs t o p,
  clean c walk args files -> NoDup (map r_name (hist s)) -> pending c (hist s) files pend ->
  grouping (c_dialect c) pend gs -> migrate c walk args (hist s) rs = (t, o) -> full_read t -> prefix p t ->
  exists k rest new tail,
    concat (firstn k gs) ++ rest = pend /\ data (after s p) = data s ++ new ++ tail
    /\ in_order c (concat (firstn k gs)) new
    /\ (Forall no_lock p -> each_once c (concat (firstn k gs)) new)
    /\ (tail = [] \/ exists f rest', rest = f :: rest' /\ ~ in_transaction (c_dialect c) f /\ Forall (effect_about c f) tail).
Proof. exact run_pending. Qed.
Print Assumptions C19_prefix.

(** A run that reports success has applied the whole pending list and recorded it. *)
Theorem C19_complete : forall c walk args files s pend rs t,
  clean c walk args files -> NoDup (map r_name (hist s)) -> pending c (hist s) files pend ->
  migrate c walk args (hist s) rs = (t, Done) -> full_read t ->
  exists new, data (after s t) = data s ++ new /\ in_order c pend new
    /\ (Forall no_lock t \/ Forall (in_transaction (c_dialect c)) pend -> each_once c pend new)
    /\ (c_skip_history c = false -> forall f, In f files -> up_to_date c (hist (after s t)) f).
Proof. exact run_all_pending. Qed.
Print Assumptions C19_complete.

Example C19_example :
  let '(t, o) := migrate shop shop_files [] [] (replies []) in
  o = Done /\ data (after empty t) = map (fun f => Applied f (contents_of shop f)) shop_files.
Proof. vm_compute. split; reflexivity. Qed.
Example C19_example_failure :
  let '(t, o) := migrate shop shop_files [] [] (replies [ROk; ROk; ROk; ROk; ROk; ROk; ROk; ROk; RErr false true]) in
  o = Failed /\ filter (fun e => match fst e with OpExec _ _ => true | _ => false end) t
     = [(OpExec (B"1.sql") (B"CREATE TABLE a ();"), ROk); (OpExec (B"2.sql") (B"CREATE TABLE b ();"), ROk);
        (OpExec (B"3.txoff.sql") (B"VACUUM; VACUUM;"), RErr false true)].
Proof. vm_compute. split; reflexivity. Qed.

(** ** C20 *)
(** Any run: a script is executed inside an open transaction exactly when its name (and
    the dialect) asks for one. *)
Theorem C20_transaction : forall c walk args s rs t o a f x r b,
  migrate c walk args (hist s) rs = (t, o) -> t = a ++ (OpExec f x, r) :: b ->
  (working (interp (start s) a) <> None <-> in_transaction (c_dialect c) f).
Proof. exact exec_in_transaction. Qed.
Print Assumptions C20_transaction.

(** Undo scripts run outside any transaction. *)
Theorem C20_undo_outside : forall c walk args s rs t o a f x r b,
  migrate c walk args (hist s) rs = (t, o) -> t = a ++ (OpUndo f x, r) :: b ->
  working (interp (start s) a) = None.
Proof. exact undo_outside. Qed.
Print Assumptions C20_undo_outside.

(** A run in which nothing fails performs exactly the operations of the documented
    groups of its pending scripts. *)
Theorem C20_groups : forall c walk args files s pend gs rs t o,
  clean c walk args files -> NoDup (map r_name (hist s)) -> pending c (hist s) files pend ->
  grouping (c_dialect c) pend gs -> (c_skip_history c = false -> files <> []) ->
  migrate c walk args (hist s) rs = (t, o) -> full_read t -> all_ok t ->
  exists rows ops, map fst t = (if c_skip_history c then [] else [OpEnsure; OpQuery]) ++ ops
    /\ group_ops c rows gs ops /\ o = Done
    /\ forall f, r_name (rows f) = f /\ r_success (rows f) = true
         /\ (is_repeatable f -> forall x, c_dir c f = Some x -> r_checksum (rows f) = Some (c_hash c (lf_only x))).
Proof. exact clean_run_ok. Qed.
Print Assumptions C20_groups.

Definition brief (e : event) : bytes :=
  match fst e with
  | OpBegin => B"BEGIN" | OpCommit => B"COMMIT" | OpExec f _ => f | OpUpsert _ => B"record"
  | OpEnsure => B"ensure" | OpQuery => B"query" | _ => B"other"
  end.
Example C20_example :
  map brief (fst (migrate shop shop_files [] [] (replies [])))
  = map B ["ensure"; "query"; "BEGIN"; "1.sql"; "record"; "2.sql"; "record"; "COMMIT"; "3.txoff.sql"; "record";
           "BEGIN"; "4.tx.sql"; "record"; "COMMIT"; "BEGIN"; "repeatable/v.sql"; "record"; "COMMIT"]%string.
Proof. vm_compute. reflexivity. Qed.
Example C20_example_mysql :
  map brief (fst (migrate (demo MySQL (map (fun f => (f, B"x")) shop_files)) shop_files [] [] (replies [])))
  = map B ["ensure"; "query"; "1.sql"; "record"; "2.sql"; "record"; "3.txoff.sql"; "record";
           "BEGIN"; "4.tx.sql"; "record"; "COMMIT"; "repeatable/v.sql"; "record"]%string.
Proof. vm_compute. reflexivity. Qed.

(** ** C21 *)
Theorem C21_refuted_base_above_max : exists c walk args h rs t o d r,
  migrate c walk args h rs = (t, o) /\ In (OpSleep d, r) t /\ (c_max_delay c < d)%Z.
Proof. exact waits_too_long. Qed.
Print Assumptions C21_refuted_base_above_max.

(** Number of executions of a script, per occurrence in the file list. *)
Theorem C21_attempts : forall c walk args h rs t o files f,
  migrate c walk args h rs = (t, o) -> selected_files c walk args = Some files ->
  executions f t <= Nat.max 1 (Z.to_nat (c_max_attempts c)) * occ files f
  /\ (Forall no_lock t \/ c_detects_lock c = false \/ (exists x, c_dir c f = Some x /\ ~ may_retry c f x) ->
      executions f t <= occ files f).
Proof. exact attempts_bounded. Qed.
Print Assumptions C21_attempts.

(** Every wait directly follows a lock timeout (and the rollback), and lies between the
    two delays provided that BaseDelay <= MaxDelay; that proviso is what is missing. *)
Theorem C21_waits_partial : forall c walk args h rs t o a d r b,
  migrate c walk args h rs = (t, o) -> t = a ++ (OpSleep d, r) :: b -> good_wait c a d.
Proof. exact waits_after_lock_timeout. Qed.
Print Assumptions C21_waits_partial.

(** Three attempts, with waits of 1 and 3 seconds. *)
Example C21_example :
  let '(t, o) := migrate (with_delays one 3 second (300 * second)) [B"1.sql"] [] []
    (replies [ROk; ROk; ROk; RErr true false; ROk; RVal 1; ROk; ROk; RErr true false; ROk; RVal 3; ROk; ROk; RErr true false]) in
  executions (B"1.sql") t = 3 /\ o = Failed
  /\ filter (fun e => match fst e with OpSleep _ => true | _ => false end) t = [(OpSleep second, ROk); (OpSleep (3 * second), ROk)].
Proof. vm_compute. repeat split; reflexivity. Qed.

(** ** C22 *)
Theorem C22_refuted_begin_timeout : exists c walk args h rs t,
  sane_delays c /\ migrate c walk args h rs = (t, Panicked).
Proof. exact panics_at_begin. Qed.
Print Assumptions C22_refuted_begin_timeout.
Theorem C22_refuted_small_delay : exists c walk args h rs t,
  (0 < c_base_delay c < c_max_delay c)%Z /\ no_begin_timeout t /\ migrate c walk args h rs = (t, Panicked).
Proof. exact panics_small_delay. Qed.
Print Assumptions C22_refuted_small_delay.
Theorem C22_refuted_many_attempts : exists c walk args h rs t,
  c_base_delay c = second /\ c_max_delay c = (300 * second)%Z /\ c_max_attempts c = 50%Z
  /\ migrate c walk args h rs = (t, Panicked) /\ no_begin_timeout t.
Proof. exact panics_many_attempts. Qed.
Print Assumptions C22_refuted_many_attempts.

(** Missing: lock timeouts of BEGIN itself and delays outside [sane_delays] (base delay
    of at least half a second, base * 2^(attempts - 1) below 2^63 ns). *)
Theorem C22_no_panic_partial : forall c walk args h rs t o, migrate c walk args h rs = (t, o) ->
  sane_delays c -> no_begin_timeout t -> o = Done \/ o = Failed.
Proof. exact never_panics. Qed.
Print Assumptions C22_no_panic_partial.
(** The default settings are sane. *)
Example C22_defaults : sane_delays one.
Proof. split; vm_compute; congruence. Qed.

(** ** C23 *)
Theorem C23_refuted_single_statement : exists c walk args h rs t o a f x l ap b u y,
  migrate c walk args h rs = (t, o) /\ t = a ++ (OpExec f x, RErr l ap) :: b /\ l = false
  /\ ~ in_transaction (c_dialect c) f /\ undo_script f u /\ c_dir c u = Some y
  /\ forall u' y' r, ~ In (OpUndo u' y', r) t.
Proof. exact no_undo. Qed.
Print Assumptions C23_refuted_single_statement.

(** Missing: scripts that consist of one statement ended by their only semicolon. *)
Theorem C23_undo_runs_partial : forall c walk args h rs t o a f x l ap b u y,
  migrate c walk args h rs = (t, o) -> t = a ++ (OpExec f x, RErr l ap) :: b ->
  ~ in_transaction (c_dialect c) f -> ~ one_statement x ->
  undo_script f u -> c_dir c u = Some y ->
  exists r b', b = (OpUndo u y, r) :: b'.
Proof. exact undo_runs. Qed.
Print Assumptions C23_undo_runs_partial.

Example C23_example :
  fst (migrate shop shop_files [] (map applied_row (map B ["1.sql"; "2.sql"]%string)) (replies [ROk; ROk; RErr false true]))
  = [(OpEnsure, ROk); (OpQuery, ROk); (OpExec (B"3.txoff.sql") (B"VACUUM; VACUUM;"), RErr false true);
     (OpUndo (B"3.undo.sql") (B"SELECT 1;"), ROk);
     (OpUpsert [{| r_name := B"3.txoff.sql"; r_checksum := Some []; r_started := true; r_success := false |}], ROk)].
Proof. vm_compute. reflexivity. Qed.
Example C23_hypotheses : ~ in_transaction Postgres (B"3.txoff.sql") /\ ~ one_statement (B"VACUUM; VACUUM;")
  /\ undo_script (B"3.txoff.sql") (B"3.undo.sql").
Proof.
  split; [apply not_in_tx_compute; reflexivity|]. split; [|exact (undo_txoff (B"3"))].
  intros H. apply single_statement_iff in H. vm_compute in H. discriminate.
Qed.

(** ** C29 *)
Theorem C29_refuted_commit_error : exists c walk args s rs t o rs2 t2,
  migrate c walk args (hist s) rs = (t, o) /\ full_read t
  /\ migrate c walk args (hist (after s t)) rs2 = (t2, Done) /\ full_read t2
  /\ exists f x, data (after (after s t) t2) = data s ++ [Applied f x; Applied f x].
Proof. exact applied_twice_after_commit_error. Qed.
Print Assumptions C29_refuted_commit_error.

(** [interrupted s s']: any number of runs, each killed at any point.  Missing: a commit
    that takes effect although the client sees an error, after which the client goes on
    (it then records a failure); and inputs that are not clean (see C17). *)
Theorem C29_crash_recovery_partial : forall c walk args files s pend,
  clean c walk args files -> c_skip_history c = false -> NoDup (map r_name (hist s)) ->
  pending c (hist s) files pend -> Forall (in_transaction (c_dialect c)) pend ->
  forall s' rs t rs0 t0,
  interrupted c walk args s s' ->
  migrate c walk args (hist s') rs = (t, Done) -> full_read t ->
  migrate c walk args (hist s) rs0 = (t0, Done) -> full_read t0 ->
  data (after s' t) = data (after s t0)
  /\ data (after s' t) = data s ++ map (fun f => Applied f (contents_of c f)) pend
  /\ (forall r, In r (hist (after s' t)) <-> In r (hist (after s t0))).
Proof. exact crash_recovery. Qed.
Print Assumptions C29_crash_recovery_partial.

(** Killed between the two transactions, killed again in the middle of the second, then
    completed. *)
Definition two : config := demo Postgres [(B"1.sql", B"a"); (B"2.tx.sql", B"b")].
Definition two_files : list bytes := map B ["1.sql"; "2.tx.sql"]%string.
Example C29_example :
  let s1 := after empty (firstn 6 (fst (migrate two two_files [] [] (replies [])))) in
  let s2 := after s1 (firstn 4 (fst (migrate two two_files [] (hist s1) (replies [])))) in
  let '(t, o) := migrate two two_files [] (hist s2) (replies []) in
  data s1 = [Applied (B"1.sql") (B"a")] /\ s2 = s1 /\ o = Done
  /\ data (after s2 t) = [Applied (B"1.sql") (B"a"); Applied (B"2.tx.sql") (B"b")].
Proof. vm_compute. repeat split; reflexivity. Qed.
Example C29_hypotheses : clean two two_files [] two_files /\ pending two [] two_files two_files
  /\ Forall (in_transaction (c_dialect two)) two_files.
Proof.
  split; [|split].
  - constructor; [reflexivity|repeat constructor; cbn; intuition discriminate
      |intros _; repeat (constructor; [apply plain_compute; reflexivity|]); constructor
      |repeat (constructor; [vm_compute; discriminate|]); constructor|discriminate].
  - unfold two_files. cbn [map]. repeat (apply pending_due; [right; intros (r & [] & _)|]). apply pending_nil.
  - repeat (constructor; [apply in_tx_compute; reflexivity|]). constructor.
Qed.

(** ** C30 *)
(** Even if the database lets only one transaction run at a time. *)
Theorem C30_refuted_race : exists c walk args s m,
  two_runs c walk args s m /\ all_ok (map snd m)
  /\ exists f x, data (after s (map snd m)) = data s ++ [Applied f x; Applied f x].
Proof. exact applied_twice_in_race. Qed.
Print Assumptions C30_refuted_race.

(** Missing: runs that overlap in time.  Any number of runs one after the other, each
    possibly killed, apply a transactional script at most once. *)
Theorem C30_one_after_the_other_partial : forall c walk args files s pend,
  clean c walk args files -> c_skip_history c = false -> NoDup (map r_name (hist s)) ->
  pending c (hist s) files pend -> Forall (in_transaction (c_dialect c)) pend ->
  forall s' f, interrupted c walk args s s' ->
  exists new, data s' = data s ++ new /\ effects_of f new <= 1 /\ (effects_of f new = 1 -> up_to_date c (hist s') f).
Proof. exact applied_once. Qed.
Print Assumptions C30_one_after_the_other_partial.
Example C30_example :
  let s1 := after empty (fst (migrate two two_files [] [] (replies []))) in
  effects_of (B"1.sql") (data s1) = 1
  /\ data (after s1 (fst (migrate two two_files [] (hist s1) (replies [])))) = data s1.
Proof. vm_compute. split; reflexivity. Qed.

(** ** C52 *)
Theorem C52_refuted_shared_prefix : exists d f, hd_error f <> Some "."%char /\ normalize_filename f d <> f.
Proof. exists (B"migrations"), (B"migrations2.sql"). split; [discriminate|vm_compute; discriminate]. Qed.
Print Assumptions C52_refuted_shared_prefix.
Theorem C52_refuted_hidden : exists d f, ~ (exists r, f = d ++ r) /\ normalize_filename f d <> f.
Proof.
  exists (B"migrations"), (B".hidden.sql"). split; [intros (r & H); discriminate|vm_compute; discriminate].
Qed.
Print Assumptions C52_refuted_hidden.

(** A file named by its path, where the directory and the path may or may not begin with
    "./" and the directory may end in a slash. *)
Theorem C52_with_directory_partial : forall d f dir x slash,
  d <> [] -> hd_error d <> Some "."%char -> hd_error d <> Some "/"%char -> hd_error f <> Some "/"%char ->
  slash = [] \/ slash = B"/" ->
  spelled (d ++ slash) dir -> spelled (d ++ B"/" ++ f) x -> normalize_filename x dir = f.
Proof. exact normalize_inside. Qed.
Print Assumptions C52_with_directory_partial.
(** A file named relative to the directory; missing: names that begin with a dot or with
    the name of the directory. *)
Theorem C52_relative_partial : forall d f dir x,
  hd_error d <> Some "."%char -> hd_error d <> Some "/"%char ->
  hd_error f <> Some "."%char -> hd_error f <> Some "/"%char -> (d = [] \/ ~ exists r, f = d ++ r) ->
  dir = [] \/ spelled d dir -> x = f \/ (dir <> [] /\ x = B"./" ++ f) -> normalize_filename x dir = f.
Proof. exact normalize_relative. Qed.
Print Assumptions C52_relative_partial.
Example C52_example :
  map (fun x => normalize_filename x (B"./db/migrations")) (map B ["db/migrations/1.sql"; "./db/migrations/1.sql"; "1.sql"; "./1.sql"]%string)
  = map B ["1.sql"; "1.sql"; "1.sql"; "1.sql"]%string.
Proof. vm_compute. reflexivity. Qed.

(** ** C53 *)
Theorem C53_refuted_history_timeout : exists c walk args s rs t f x,
  clean c walk args [f] /\ migrate c walk args (hist s) rs = (t, Done)
  /\ data (after s t) = data s ++ [Applied f x; Applied f x].
Proof. exact executed_twice. Qed.
Print Assumptions C53_refuted_history_timeout.
(** Scripts in transactions; and everything if no lock timeout is reported (C19_prefix). *)
Theorem C53_once_partial : forall c fs es, in_order c fs es -> NoDup fs -> forall f,
  in_transaction (c_dialect c) f ->
  effects_of f es <= (if in_dec (list_eq_dec Ascii.ascii_dec) f fs then 1 else 0).
Proof. exact in_order_once. Qed.
Print Assumptions C53_once_partial.
Example C53_example :
  let t := fst (migrate one [B"1.sql"] [] [] (replies [ROk; ROk; ROk; ROk; RErr true false])) in
  executions (B"1.sql") t = 2 /\ data (after empty t) = [Applied (B"1.sql") (B"SELECT 1")].
Proof. vm_compute. split; reflexivity. Qed.

(** ** C54 *)
Theorem C54_refuted_ambiguous_write : exists c walk args s rs t o f row x y,
  migrate c walk args (hist s) rs = (t, o)
  /\ data (after s t) = data s ++ [Applied f x; y] /\ (exists u z, undo_script f u /\ y = Undone u z)
  /\ In row (hist (after s t)) /\ r_name row = f /\ r_success row = true.
Proof. exact success_although_undone. Qed.
Print Assumptions C54_refuted_ambiguous_write.
(** After an undo script the run only records the failure.  Missing: that record being
    lost after a success row was written in spite of an error reply. *)
Theorem C54_undo_records_failure_partial : forall c walk args h rs t o a u y r b,
  migrate c walk args h rs = (t, o) -> c_skip_history c = false -> t = a ++ (OpUndo u y, r) :: b ->
  exists f row r', undo_script f u /\ c_dir c u = Some y /\ ~ in_transaction (c_dialect c) f
    /\ (exists x r0, In (OpExec f x, r0) a)
    /\ r_name row = f /\ r_success row = false /\ b = [(OpUpsert [row], r')].
Proof. exact undo_last. Qed.
Print Assumptions C54_undo_records_failure_partial.

(** ** C55 *)
Theorem C55_second_run_does_nothing_partial : forall c walk args files s rs t rs2 t2 o2,
  clean c walk args files -> c_skip_history c = false -> NoDup (map r_name (hist s)) ->
  migrate c walk args (hist s) rs = (t, Done) -> full_read t ->
  migrate c walk args (hist (after s t)) rs2 = (t2, o2) -> full_read t2 ->
  no_exec t2 /\ after (after s t) t2 = after s t.
Proof. exact second_run. Qed.
Print Assumptions C55_second_run_does_nothing_partial.
Theorem C55_refuted : exists c walk args s rs t rs2 t2 o2,
  migrate c walk args (hist s) rs = (t, Done) /\ migrate c walk args (hist (after s t)) rs2 = (t2, o2)
  /\ all_ok (t ++ t2) /\ ~ no_exec t2.
Proof.
  exists one, [], (map B ["1.sql"; "1.sql"]%string), empty, (replies []). eexists _, (replies []), _, _.
  split; [vm_compute; reflexivity|]. split; [vm_compute; reflexivity|]. split; [apply all_ok_compute; vm_compute; reflexivity|].
  intros H. apply (H (B"1.sql") (B"SELECT 1") ROk). vm_compute. auto 10.
Qed.
Print Assumptions C55_refuted.
Example C55_example :
  let s1 := after empty (fst (migrate shop shop_files [] [] (replies []))) in
  map fst (fst (migrate shop shop_files [] (hist s1) (replies []))) = [OpEnsure; OpQuery].
Proof. vm_compute. reflexivity. Qed.
