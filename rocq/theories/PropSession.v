(** Session settings that are changed for the time of a load or a migration: C46 and C70. *)
From Verif Require Import GoStr ModelSq ModelDdl ModelHistory ModelMigrate ModelSession SpecSession SessionFacts.

(** ** C46: whatever happens during load or migrate, session settings that were changed for the
    time of the run have their previous values afterwards, unless setting them back failed *)
(** As stated it is false for SQLite: a script that ends within a transaction makes the pragma
    that restores foreign_keys do nothing, and the run succeeds. *)
Definition open_end : body := fun w => (Done, World (w_var w) (Some (w_var w)) (w_dead w) (w_log w)).
Theorem C46_refuted : ~ forall d fails value b w o w', fresh w -> leaves_alone b -> (forall x, w_log (snd (b x)) = w_log x) ->
  with_setting d fails value b w = (o, w') -> restored (w_var w) w w'.
Proof.
  intros H. pose (w := World (B"1") None false []). pose (r := with_setting SQLite (fun _ => false) (B"0") open_end w).
  specialize (H SQLite (fun _ => false) (B"0") open_end w (fst r) (snd r)).
  assert (X : restored (w_var w) w (snd r)) by (apply H; [split; reflexivity|intros x; reflexivity|intros x; reflexivity|apply surjective_pairing]).
  destruct X as [X|(l & X & Y)]; [vm_compute in X; discriminate X|].
  unfold calls in X. rewrite app_nil_r in X. rewrite <- X in Y. vm_compute in Y. repeat (destruct Y as [Y|Y]; [discriminate Y|]). destruct Y.
Qed.
Print Assumptions C46_refuted.

(** For scripts that leave no transaction open: migrate, load on SQLite, and the script of the
    constraints on MySQL. Every call may fail, the scripts may end with any outcome, and they may
    change the variable themselves if it had been changed for them. If the run reports success
    the value was restored. *)
Theorem C46_setting_partial : forall d fails value b w o w', tidy b -> fresh w -> (w_var w = value -> leaves_alone b) ->
  with_setting d fails value b w = (o, w') ->
  restored (w_var w) w w' /\ (o = Done -> w_var w' = w_var w) /\ w_tx w' = None.
Proof. exact with_setting_restored. Qed.
Print Assumptions C46_setting_partial.
(** For the CSV files, which are loaded in a transaction. On Postgres a run that fails has
    restored the value even if setting it back failed. *)
Theorem C46_transaction_partial : forall d fails value b0 b w o w', d <> SQLite -> tidy b0 -> tidy b -> fresh w -> leaves_alone b0 -> (w_var w = value -> leaves_alone b) ->
  load_csv d fails value b0 b w = (o, w') ->
  (d = Postgres -> o <> Done -> w_var w' = w_var w) /\ restored (w_var w) w w' /\ (o = Done -> w_var w' = w_var w) /\ w_tx w' = None.
Proof. exact load_csv_restored. Qed.
Print Assumptions C46_transaction_partial.
(** However often the restoring function is called, the value is set back once. *)
Theorem C46_once_partial : forall d fails n old w r' w', restore_times d fails (S n) (RRestore old false) w = (r', w') ->
  exists ok, calls w w' [SSet old ok] /\ (fresh w -> ok = true -> w_var w' = old).
Proof. exact restore_once. Qed.
Print Assumptions C46_once_partial.

(** A migration that fails, one whose restoring fails, and a load on Postgres in which an error
    puts the transaction into the failed state, so that setting the value back fails as well. *)
Definition quiet_run (o : outcome) : body := fun w => (o, w).
Definition broken_insert : body := fun w => (Failed, World (w_var w) (w_tx w) (match w_tx w with Some _ => true | None => w_dead w end) (w_log w)).
Example C46_tidy : (forall o, tidy (quiet_run o)) /\ tidy broken_insert.
Proof. split; [intros o x; cbn; auto|]. intros x. cbn. split; [reflexivity|]. split; [reflexivity|]. intros ->. reflexivity. Qed.
Example C46_example : with_setting MySQL (fun _ => false) (B"10") (quiet_run Failed) (World (B"50") None false [])
  = (Failed, World (B"50") None false [SSet (B"50") true; SSet (B"10") true; SGet true]).
Proof. vm_compute. reflexivity. Qed.
Example C46_fails_example : with_setting MySQL (fun n => n =? 2) (B"10") (quiet_run Done) (World (B"50") None false [])
  = (Failed, World (B"10") None false [SSet (B"50") false; SSet (B"10") true; SGet true]).
Proof. vm_compute. reflexivity. Qed.
Example C46_postgres_example : let r := load_csv Postgres (fun _ => false) (B"UTC") (quiet_run Done) broken_insert (World (B"Europe/Paris") None false []) in
  fst r = Failed /\ w_var (snd r) = B"Europe/Paris" /\ In (SSet (B"Europe/Paris") false) (w_log (snd r)).
Proof. vm_compute. auto 10. Qed.
Example C46_mysql_example : let r := load_csv MySQL (fun _ => false) (B"0") (quiet_run Done) (quiet_run Failed) (World (B"1") None false []) in
  fst r = Failed /\ w_var (snd r) = B"1".
Proof. vm_compute. auto. Qed.

(** ** C70: the statement that sets a value back assigns exactly the previous value, whatever it was *)
(** False for the lock timeout of Postgres: the statement reads SET lock_timeout = 5s, which is
    not valid, for every timeout other than 0. *)
Theorem C70_refuted : ~ forall d setter v, lock_setter d = Some setter -> (d = Postgres -> reported_timeout v) -> (d <> Postgres -> reported_integer v) ->
  exists p, cut (B"%s") setter = Some (p, []) /\ assigns p (set_text setter v) v.
Proof.
  intros H. destruct (H Postgres (B"SET lock_timeout = %s") (B"5s")) as (p & C & r & E & R).
  - reflexivity.
  - intros _. right. exists (B"5"), (B"s"). repeat split; auto. cbn. auto.
  - intros N. contradiction.
  - vm_compute in C. injection C as <-. vm_compute in E.
    assert (X : r = B"5s") by (repeat (injection E as E); symmetry; exact E). rewrite X in R. vm_compute in R. discriminate R.
Qed.
Print Assumptions C70_refuted.
Theorem C70_never_refuted : forall v, reported_timeout v -> v <> B"0" -> ~ assigns (B"SET lock_timeout = ") (set_text (B"SET lock_timeout = %s") v) v.
Proof. exact timeout_not_assigned. Qed.
Print Assumptions C70_never_refuted.
(** For the other variables every integer is assigned. *)
Theorem C70_integers_partial : forall d setter v, (lock_setter d = Some setter \/ (load_setter d = Some setter /\ d <> Postgres)) -> reported_integer v ->
  exists p, cut (B"%s") setter = Some (p, []) /\ assigns p (set_text setter v) v.
Proof. exact integers_assigned. Qed.
Print Assumptions C70_integers_partial.
(** For the time zone of Postgres every value without two quotes in a row, which no time zone has. *)
Theorem C70_quoted_partial : forall setter v, load_setter Postgres = Some setter -> (forall a b, v <> a ++ squote :: squote :: b) ->
  assigns (B"SET timezone = ") (set_text setter v) v.
Proof. exact timezone_assigned. Qed.
Print Assumptions C70_quoted_partial.
Example C70_example : set_text (B"SET timezone = '%s'") (B"<Mars's>-3") = B"SET timezone = '<Mars''s>-3'" /\ load_setter Postgres = Some (B"SET timezone = '%s'").
Proof. vm_compute. auto. Qed.
Example C70_integer_example : set_text (B"SET LOCK_TIMEOUT %s") (Z_dec (-1)) = B"SET LOCK_TIMEOUT -1".
Proof. vm_compute. reflexivity. Qed.
