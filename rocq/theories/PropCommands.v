(** Properties C24-C28 and C58-C60: the commands touch, rm, mv and ls. *)
From Verif Require Import GoStr GoStrFacts ModelSq SpecSql SqFacts ModelHistory HistoryFacts.
From Verif Require Import ModelMigrate SpecDb SpecMigrate MigrateFacts MigratePlan MigrateSafety MigrateWitness.
From Verif Require Import ModelCommands SpecCommands TouchFacts CommandFacts CommandWitness.

(** ** C24 *)
(** touch executes nothing and leaves the data and the rows of all other scripts alone,
    at every point of every run. *)
Theorem C24_touch_only_records : forall c walk args s rs t o p,
  touch c walk args rs = (t, o) -> prefix p t ->
  no_exec t /\ (forall f x r, ~ In (OpUndo f x, r) t) /\ data (after s p) = data s
  /\ forall files r, selected_files c walk args = Some files -> ~ In (r_name r) files ->
       (In r (hist (after s p)) <-> In r (hist s)).
Proof. exact touch_other_rows. Qed.
Print Assumptions C24_touch_only_records.

(** Missing from the full claim: names that the query of migrate does not read back
    as themselves, lists with duplicates and a query whose rows break off. *)
Theorem C24_migrate_does_nothing_partial : forall c walk args files s rs t rs2 t2 o2,
  clean c walk args files -> c_skip_history c = false -> NoDup (map r_name (hist s)) ->
  touch c walk args rs = (t, Done) ->
  migrate c walk args (hist (after s t)) rs2 = (t2, o2) -> full_read t2 -> no_exec t2.
Proof. exact touch_then_migrate. Qed.
Print Assumptions C24_migrate_does_nothing_partial.

Theorem C24_refuted : exists c walk args s rs t rs2 t2 o2,
  c_skip_history c = false /\ NoDup (map r_name (hist s)) /\ touch c walk args rs = (t, Done)
  /\ migrate c walk args (hist (after s t)) rs2 = (t2, o2) /\ all_ok (t ++ t2) /\ full_read t2 /\ ~ no_exec t2.
Proof. exact touch_quoted. Qed.
Print Assumptions C24_refuted.

Example C24_example :
  let '(t, o) := touch shop shop_files [] (replies []) in
  o = Done
  /\ map fst t = [OpEnsure; OpBegin; OpUpsert (map (touched shop) shop_files); OpCommit]
  /\ map fst (fst (migrate shop shop_files [] (hist (after empty t)) (replies []))) = [OpEnsure; OpQuery].
Proof. vm_compute. repeat split. Qed.
Example C24_example_clean : clean shop shop_files [] shop_files.
Proof. exact shop_clean. Qed.

(** ** C25: for every list of names, also with duplicates and in every order *)
Theorem C25_checksums : forall c walk args files s rs t f,
  NoDup (map r_name (hist s)) -> touch c walk args rs = (t, Done) ->
  selected_files c walk args = Some files -> In f files ->
  exists r, In r (hist (after s t)) /\ r_name r = f /\ r_success r = true
    /\ (forall r', In r' (hist (after s t)) -> r_name r' = f -> r' = r)
    /\ (is_repeatable f -> exists x, c_dir c f = Some x /\ r_checksum r = Some (c_hash c (lf_only x)))
    /\ (~ is_repeatable f -> r_checksum r = None).
Proof. exact touch_checksums. Qed.
Print Assumptions C25_checksums.

(** A regular script is named after a repeatable one. *)
Definition mixed : list bytes := map B ["1.sql"; "repeatable/v.sql"; "2.sql"]%string.
Example C25_example :
  let '(t, o) := touch shop [] mixed (replies []) in
  o = Done /\ map (fun r => (r_name r, match r_checksum r with Some _ => true | None => false end)) (hist (after empty t))
              = [(B"1.sql", false); (B"2.sql", false); (B"repeatable/v.sql", true)].
Proof. vm_compute. split; reflexivity. Qed.

(** ** C26 *)
(** Missing: names that the database does not read back as themselves. *)
Theorem C26_rm_makes_pending_partial : forall c walk args files removed ok r counted h h' p p' rs t,
  c_skip_history c = false -> clean c walk args files -> NoDup (map r_name h) ->
  Forall (plain_name (c_dialect c)) removed ->
  rm (c_dialect c) removed ok r counted (Some h) = (Some h', Done) ->
  pending c h files p -> pending c h' files p' ->
  without removed h h'
  /\ (forall f, In f p' <-> In f p \/ (In f removed /\ In f files))
  /\ (migrate c walk args h' rs = (t, Done) -> full_read t -> all_ok t -> scripts t = p').
Proof. exact rm_makes_pending. Qed.
Print Assumptions C26_rm_makes_pending_partial.

(** Also when rm reports an error, the other rows are as before. *)
Theorem C26_other_rows_partial : forall d files ok r counted rows h' o,
  Forall (plain_name d) files -> rm d files ok r counted (Some rows) = (h', o) ->
  exists rows', h' = Some rows' /\ (rows' = rows \/ without files rows rows').
Proof. exact rm_others. Qed.
Print Assumptions C26_other_rows_partial.

Theorem C26_refuted : exists d removed h h',
  rm d removed true ROk true (Some h) = (Some h', Done) /\ ~ without removed h h'.
Proof. exact rm_quoted. Qed.
Print Assumptions C26_refuted.

Example C26_example :
  let h := hist (after empty (fst (migrate shop shop_files [] [] (replies [])))) in
  let '(h', o) := rm Postgres (map B ["2.sql"; "gone.sql"]%string) true ROk true (Some h) in
  o = Done /\ map r_name (table h') = map B ["1.sql"; "3.txoff.sql"; "4.tx.sql"; "repeatable/v.sql"]%string
  /\ scripts (fst (migrate shop shop_files [] (table h') (replies []))) = [B"2.sql"].
Proof. vm_compute. repeat split. Qed.

(** ** C27 *)
Theorem C27_refuted : exists d src dest h h',
  mv d src dest true ROk true (Some h) = (Some h', Done) /\ NoDup (map r_name h) /\ In src (map r_name h)
  /\ plain_name d src /\ plain_name d dest /\ ~ moved src dest h h'.
Proof. exact mv_conflict. Qed.
Print Assumptions C27_refuted.
(** No error of the statement is reported. *)
Theorem C27_refuted_every_error : forall d src dest lock applied counted h,
  d <> Other -> src <> [] -> dest <> [] ->
  snd (mv d src dest true (RErr lock applied) counted (Some h)) = Done.
Proof. exact mv_swallows. Qed.
Print Assumptions C27_refuted_every_error.

(** Missing: errors of the statement, a destination that has a row already, and names
    that the database does not read back as themselves. *)
Theorem C27_renamed_partial : forall d src dest ok r counted h h',
  plain_name d src -> plain_name d dest ->
  mv d src dest ok r counted (Some h) = (Some h', Done) -> is_ok r = true ->
  (src = dest \/ ~ In src (map r_name h) \/ ~ In dest (map r_name h)) -> moved src dest h h'.
Proof. exact mv_keeps_state. Qed.
Print Assumptions C27_renamed_partial.
(** A renamed regular script is as up to date as it was. *)
Theorem C27_state_moves_along_partial : forall c src dest h h',
  moved src dest h h' -> ~ is_repeatable src -> ~ is_repeatable dest -> ~ In dest (map r_name h) ->
  (up_to_date c h' dest <-> up_to_date c h src).
Proof. exact moved_up_to_date. Qed.
Print Assumptions C27_state_moves_along_partial.
(** The other rows stay whatever happens, and a failing lookup of the table is reported. *)
Theorem C27_other_rows_partial : forall d src dest ok r counted rows h' o,
  plain_name d src -> plain_name d dest -> mv d src dest ok r counted (Some rows) = (h', o) ->
  exists rows', h' = Some rows' /\ (rows' = rows \/ moved src dest rows rows').
Proof. exact mv_others. Qed.
Print Assumptions C27_other_rows_partial.
Theorem C27_lookup_error_partial : forall d src dest r counted h, snd (mv d src dest false r counted h) = Failed.
Proof. exact mv_error_of_lookup. Qed.
Print Assumptions C27_lookup_error_partial.

Example C27_example :
  let h := [applied_row (B"1.sql"); applied_row (B"2.sql")] in
  mv MySQL (B"1.sql") (B"01_it's.sql") true ROk true (Some h)
  = (Some [applied_row (B"01_it's.sql"); applied_row (B"2.sql")], Done).
Proof. vm_compute. reflexivity. Qed.

(** ** C28 *)
Theorem C28_ls_shows_what_migrate_runs : forall c walk ok r r' sorted h l rs t o,
  c_skip_history c = false -> written (table h) ->
  ls c no_flags walk ok r r' sorted h = (l, Done) -> (forall n, r <> RVal n) ->
  migrate c walk [] (table h) rs = (t, o) -> full_read t ->
  (forall f, In f (scripts t) -> In f (map snd l)) /\ (o = Done -> all_ok t -> scripts t = map snd l).
Proof. exact ls_shows_what_migrate_runs. Qed.
Print Assumptions C28_ls_shows_what_migrate_runs.

(** With any flags that include both kinds of lines. *)
Theorem C28_with_flags : forall c fl walk ok r r' sorted h l rs t o,
  c_skip_history c = false -> started_ok (table h) ->
  included fl LsPending = true -> included fl LsFailed = true ->
  ls c fl walk ok r r' sorted h = (l, Done) -> (forall n, r <> RVal n) ->
  migrate c walk [] (table h) rs = (t, o) -> full_read t ->
  (forall f, In f (scripts t) -> In f (shown l)) /\ (o = Done -> all_ok t -> scripts t = shown l).
Proof. exact ls_migrate. Qed.
Print Assumptions C28_with_flags.

(** Why the histories are suitable: a successful row has a starting time, and names are unique. *)
Theorem C28_written_histories : forall h, written h ->
  (forall r, In r h -> r_success r = true -> r_started r = true) /\ NoDup (map r_name h).
Proof. exact written_ok. Qed.
Print Assumptions C28_written_histories.

(** The second script has failed, the first one is applied. *)
Definition half : list row :=
  hist (after empty (fst (migrate shop shop_files [] [] (replies [ROk; ROk; ROk; ROk; ROk; ROk; ROk; ROk; RErr false true])))).
Example C28_example :
  ls shop no_flags shop_files true ROk ROk (fun l => l) (Some half)
  = ([(LsFailed, B"3.txoff.sql"); (LsPending, B"4.tx.sql"); (LsPending, B"repeatable/v.sql")], Done)
  /\ scripts (fst (migrate shop shop_files [] half (replies []))) = map B ["3.txoff.sql"; "4.tx.sql"; "repeatable/v.sql"]%string.
Proof. vm_compute. split; reflexivity. Qed.
Example C28_example_written : written half.
Proof.
  unfold half. eapply (written_migrate shop shop_files [] []); [exact written_new|apply surjective_pairing|].
  exists []. rewrite app_nil_r. reflexivity.
Qed.

(** ** C58: touch is all or nothing *)
Theorem C58_touch_is_atomic : forall c walk args files s rs t o p,
  NoDup (map r_name (hist s)) -> touch c walk args rs = (t, o) ->
  selected_files c walk args = Some files -> prefix p t ->
  after s p = s \/ forall f, In f files -> exists r, In r (hist (after s p)) /\ r_name r = f /\ r_success r = true.
Proof. exact touch_all_or_nothing. Qed.
Print Assumptions C58_touch_is_atomic.

(** 600 scripts need two statements; the second one fails. *)
Definition many : list bytes := map (fun n => nat_dec n ++ B".sql") (seq 1 600).
Example C58_example :
  let '(t, o) := touch (demo SQLite []) many [] (replies [ROk; ROk; ROk; RErr false true]) in
  o = Failed /\ List.length (filter (fun e => match fst e with OpUpsert _ => true | _ => false end) t) = 2
  /\ after empty t = empty.
Proof. vm_compute. repeat split. Qed.

(** ** C59: what the words of ls mean *)
(** Missing: names that the database does not read back as themselves, and a query whose
    rows break off. *)
Theorem C59_statuses_partial : forall c fl walk files ok r r' sorted h l,
  clean c walk [] files -> c_skip_history c = false -> written (table h) ->
  ls c fl walk ok r r' sorted h = (l, Done) -> (forall n, r <> RVal n) ->
  forall f,
  (In (LsApplied, f) l <-> included fl LsApplied = true /\ In f files /\ up_to_date c (table h) f)
  /\ (In (LsFailed, f) l <-> included fl LsFailed = true /\ In f files
       /\ exists row, In row (table h) /\ r_name row = f /\ r_started row = true /\ r_success row = false)
  /\ (In (LsPending, f) l <-> included fl LsPending = true /\ In f files /\ ~ up_to_date c (table h) f
       /\ ~ exists row, In row (table h) /\ r_name row = f /\ r_started row = true /\ r_success row = false).
Proof.
  intros c fl walk files ok r r' sorted h l Hcl Hsk Hw. destruct (written_ok _ Hw) as [H1 H2].
  exact (ls_statuses c fl walk files ok r r' sorted h l Hcl Hsk H2 H1).
Qed.
Print Assumptions C59_statuses_partial.
Theorem C59_refuted : exists c walk h l,
  written (table h) /\ ls c no_flags walk true (RVal 0) ROk (fun l => l) h = (l, Done) /\ up_to_date c (table h) (B"1.sql")
  /\ In (LsPending, B"1.sql") l.
Proof. exact ls_broken_read. Qed.
Print Assumptions C59_refuted.
Example C59_example :
  ls shop all_flags shop_files true ROk ROk (fun l => l) (Some half)
  = ([(LsApplied, B"1.sql"); (LsApplied, B"2.sql"); (LsFailed, B"3.txoff.sql"); (LsPending, B"4.tx.sql"); (LsPending, B"repeatable/v.sql")], Done).
Proof. vm_compute. reflexivity. Qed.

(** ** C60: the missing scripts *)
Theorem C60_missing_partial : forall c fl walk ok r r' sorted h l,
  Forall (plain_name (c_dialect c)) (sort_and_filter walk) ->
  (forall l f, In f (sorted l) <-> In f l) -> included fl LsMissing = true ->
  ls c fl walk ok r r' sorted h = (l, Done) -> (forall n, r' <> RVal n) ->
  forall f, In (LsMissing, f) l <-> In f (map r_name (table h)) /\ ~ In f (sort_and_filter walk).
Proof. exact ls_missing. Qed.
Print Assumptions C60_missing_partial.
(** A script that is there is shown as missing. *)
Theorem C60_refuted : exists c walk h l f,
  ls c all_flags walk true ROk ROk (fun l => l) (Some h) = (l, Done)
  /\ In (LsMissing, f) l /\ In f (sort_and_filter walk) /\ c_dir c f <> None.
Proof.
  exists (demo Postgres [(quoted, B"SELECT 1")]), [quoted], [applied_row quoted],
    (fst (ls (demo Postgres [(quoted, B"SELECT 1")]) all_flags [quoted] true ROk ROk (fun l => l) (Some [applied_row quoted]))), quoted.
  split; [vm_compute; reflexivity|]. split; [vm_compute; auto|]. split; [vm_compute; auto|vm_compute; discriminate].
Qed.
Print Assumptions C60_refuted.
Example C60_example :
  fst (ls shop all_flags (map B ["2.sql"; "notes.txt"]%string) true ROk ROk (fun l => l) (Some half))
  = [(LsApplied, B"2.sql"); (LsMissing, B"1.sql"); (LsMissing, B"3.txoff.sql")].
Proof. vm_compute. reflexivity. Qed.
