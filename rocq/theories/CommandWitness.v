(** Final forms and witnesses for touch, rm, mv and ls. *)
From Verif Require Import GoStr GoStrFacts ModelSq SpecSql SqFacts ModelHistory HistoryFacts.
From Verif Require Import ModelMigrate SpecDb SpecMigrate MigrateFacts MigratePlan MigrateSafety MigrateWitness ModelCommands SpecCommands TouchFacts CommandFacts.

Definition no_flags : flags := {| fl_pending := false; fl_applied := false; fl_failed := false; fl_missing := false; fl_all := false |}.
Definition all_flags : flags := {| fl_pending := false; fl_applied := false; fl_failed := false; fl_missing := false; fl_all := true |}.

(** ** touch *)
Lemma touch_other_rows c walk args s rs t o p : touch c walk args rs = (t, o) -> prefix p t ->
  no_exec t /\ (forall f x r, ~ In (OpUndo f x, r) t) /\ data (after s p) = data s
  /\ forall files r, selected_files c walk args = Some files -> ~ In (r_name r) files ->
       (In r (hist (after s p)) <-> In r (hist s)).
Proof.
  intros H Hp. destruct (touch_no_exec _ _ _ _ _ _ H) as [H1 H2]. destruct (touch_others _ _ _ s _ _ _ _ H Hp) as [H3 H4]. auto.
Qed.

Lemma touch_all_or_nothing c walk args files s rs t o p : NoDup (map r_name (hist s)) ->
  touch c walk args rs = (t, o) -> selected_files c walk args = Some files -> prefix p t ->
  after s p = s \/ forall f, In f files -> exists r, In r (hist (after s p)) /\ r_name r = f /\ r_success r = true.
Proof.
  intros Hh H Hs Hp. destruct (touch_atomic _ _ _ s _ _ _ _ H Hp) as [->|(files' & Hs' & ->)]; [left; reflexivity|right].
  assert (files' = files) by congruence. subst files'. intros f Hf. exists (touched c f).
  split; [|split; reflexivity]. eapply lookup_In. cbn [hist touched_all]. apply lookup_touched. exact Hf.
Qed.

Lemma touch_quoted : exists c walk args s rs t rs2 t2 o2,
  c_skip_history c = false /\ NoDup (map r_name (hist s)) /\ touch c walk args rs = (t, Done)
  /\ migrate c walk args (hist (after s t)) rs2 = (t2, o2) /\ all_ok (t ++ t2) /\ full_read t2 /\ ~ no_exec t2.
Proof.
  set (c := demo SQLite [(quoted, B"SELECT 1")]).
  exists c, [quoted], [], empty, (replies []), (fst (touch c [quoted] [] (replies []))), (replies []).
  set (h := hist (after empty (fst (touch c [quoted] [] (replies []))))).
  exists (fst (migrate c [quoted] [] h (replies []))), (snd (migrate c [quoted] [] h (replies []))).
  split; [reflexivity|]. split; [constructor|]. split; [vm_compute; reflexivity|]. split; [vm_compute; reflexivity|].
  split; [apply all_ok_compute; vm_compute; reflexivity|]. split.
  - intros n Hi. vm_compute in Hi. intuition discriminate.
  - intros H. apply (H quoted (B"SELECT 1") ROk). vm_compute. auto 10.
Qed.

(** ** rm *)
Lemma rm_makes_pending c walk args files removed ok r counted h h' p p' rs t :
  c_skip_history c = false -> clean c walk args files -> NoDup (map r_name h) ->
  Forall (plain_name (c_dialect c)) removed ->
  rm (c_dialect c) removed ok r counted (Some h) = (Some h', Done) ->
  pending c h files p -> pending c h' files p' ->
  without removed h h'
  /\ (forall f, In f p' <-> In f p \/ (In f removed /\ In f files))
  /\ (migrate c walk args h' rs = (t, Done) -> full_read t -> all_ok t -> scripts t = p').
Proof.
  intros Hsk Hcl Hh Hpl Hrm Hp Hp'. destruct (rm_done _ _ _ _ _ _ _ Hpl Hrm) as (rows' & [= <-] & Hw).
  split; [exact Hw|]. split; [eapply rm_pending; eassumption|]. intros Hm Hfull Hok.
  assert (Hh' : NoDup (map r_name h')).
  { apply rm_cases in Hrm as [[= ->]|(rows & names & [= <-] & _ & [= ->])]; [exact Hh|apply without_keyed; exact Hh]. }
  exact (ok_run_scripts _ _ _ _ _ _ _ _ Hcl Hh' Hp' Hm Hfull Hok).
Qed.

Lemma rm_quoted : exists d removed h h',
  rm d removed true ROk true (Some h) = (Some h', Done) /\ ~ without removed h h'.
Proof.
  exists Postgres, [quoted], [applied_row quoted], [applied_row quoted]. split; [vm_compute; reflexivity|].
  intros H. destruct (proj1 (H (applied_row quoted)) (or_introl eq_refl)) as [_ Hn]. apply Hn. left. reflexivity.
Qed.

(** ** mv *)
(** The destination already has a row: the database refuses, mv reports success. *)
Lemma mv_conflict : exists d src dest h h',
  mv d src dest true ROk true (Some h) = (Some h', Done) /\ NoDup (map r_name h) /\ In src (map r_name h)
  /\ plain_name d src /\ plain_name d dest /\ ~ moved src dest h h'.
Proof.
  exists Postgres, (B"1.sql"), (B"2.sql"), [applied_row (B"1.sql"); applied_row (B"2.sql")], [applied_row (B"1.sql"); applied_row (B"2.sql")].
  split; [vm_compute; reflexivity|]. split; [repeat constructor; cbn; intuition discriminate|]. split; [left; reflexivity|].
  split; [apply plain_compute; vm_compute; reflexivity|]. split; [apply plain_compute; vm_compute; reflexivity|].
  intros H. destruct (proj1 (H (applied_row (B"1.sql"))) (or_introl eq_refl)) as [[_ Hn]|(r0 & _ & _ & E)].
  - apply Hn. reflexivity.
  - apply (f_equal r_name) in E. discriminate.
Qed.
(** Any error of the statement is swallowed. *)
Lemma mv_swallows d src dest lock applied counted h : d <> Other -> src <> [] -> dest <> [] ->
  snd (mv d src dest true (RErr lock applied) counted (Some h)) = Done.
Proof.
  intros Hd Hs He. unfold mv. destruct src as [|a src]; [congruence|]. destruct dest as [|b dest]; [congruence|].
  unfold table_exists. destruct d; try congruence;
    (destruct (execute _ _ _) as [rows' executed]; destruct executed, counted; reflexivity).
Qed.

Lemma mv_keeps_state d src dest ok r counted h h' : plain_name d src -> plain_name d dest ->
  mv d src dest ok r counted (Some h) = (Some h', Done) -> is_ok r = true ->
  (src = dest \/ ~ In src (map r_name h) \/ ~ In dest (map r_name h)) -> moved src dest h h'.
Proof. intros H1 H2 H3 H4 H5. destruct (mv_done _ _ _ _ _ _ _ _ H1 H2 H3 H4 H5) as (x & [= <-] & Hx). exact Hx. Qed.

Lemma moved_up_to_date c src dest h h' : moved src dest h h' -> ~ is_repeatable src -> ~ is_repeatable dest ->
  ~ In dest (map r_name h) -> (up_to_date c h' dest <-> up_to_date c h src).
Proof.
  intros Hm Hs Hd Hn. split.
  - intros (r & Hr & En & Hsu & _). apply Hm in Hr as [[Hr _]|(r0 & Hr & E0 & ->)].
    + exfalso. apply Hn. rewrite <- En. apply in_map. exact Hr.
    + exists r0. split; [exact Hr|]. split; [exact E0|]. split; [exact Hsu|]. intros Hx. contradiction.
  - intros (r & Hr & En & Hsu & _). exists (renamed dest r). split; [apply Hm; right; exists r; auto|].
    split; [reflexivity|]. split; [exact Hsu|]. intros Hx. contradiction.
Qed.

(** ** ls *)
Lemma ls_shows_what_migrate_runs c walk ok r r' sorted h l rs t o :
  c_skip_history c = false -> written (table h) ->
  ls c no_flags walk ok r r' sorted h = (l, Done) -> (forall n, r <> RVal n) ->
  migrate c walk [] (table h) rs = (t, o) -> full_read t ->
  (forall f, In f (scripts t) -> In f (map snd l)) /\ (o = Done -> all_ok t -> scripts t = map snd l).
Proof.
  intros Hsk Hw Hls Hr Hm Hfull. apply written_ok in Hw as [Hst _].
  destruct (ls_migrate c no_flags walk ok r r' sorted h l rs t o Hsk Hst eq_refl eq_refl Hls Hr Hm Hfull) as [H1 H2].
  assert (E : shown l = map snd l); [|rewrite <- E; auto].
  assert (Hd : forall s f, In (s, f) l -> due_status s = true).
  { intros s f Hi. unfold ls in Hls.
    destruct (table_exists (c_dialect c) ok h); [|discriminate].
    match type of Hls with context [match ?x with Some rows => _ | None => ([], Failed) end] => destruct x as [rows|]; [|discriminate] end.
    destruct (ls_loop c no_flags (load_migrations (sort_and_filter walk) rows)) as [lines went] eqn:El.
    destruct went; [|discriminate].
    assert (El2 : l = lines) by (destruct h; cbn in Hls; congruence). subst l.
    apply (ls_loop_lines _ _ _ _ El) in Hi as [Hi _]. destruct s; try reflexivity; discriminate. }
  clear - Hd. induction l as [|[s f] l IH]; [reflexivity|]. unfold shown in *. cbn [filter fst].
  pose proof (Hd s f (or_introl eq_refl)) as Hs.
  assert (Hl : forall s f, In (s, f) l -> due_status s = true) by (intros s0 f0 Hi; apply (Hd s0 f0); right; exact Hi).
  destruct s; try discriminate; cbn [map snd]; f_equal; apply IH; exact Hl.
Qed.

(** A broken read makes ls show an applied script as pending. *)
Lemma ls_broken_read : exists c walk h l,
  written (table h) /\ ls c no_flags walk true (RVal 0) ROk (fun l => l) h = (l, Done) /\ up_to_date c (table h) (B"1.sql")
  /\ In (LsPending, B"1.sql") l.
Proof.
  set (t := fst (migrate one [B"1.sql"] [] [] (replies []))).
  exists one, [B"1.sql"], (Some (hist (after empty t))), [(LsPending, B"1.sql")].
  split; [|split; [vm_compute; reflexivity|split]].
  - eapply (written_migrate one [B"1.sql"] [] [] (replies []) t _ t empty); [apply written_new|apply surjective_pairing|].
    exists []. rewrite app_nil_r. reflexivity.
  - eexists. split; [vm_compute; left; reflexivity|]. split; [reflexivity|]. split; [reflexivity|].
    intros (g & Hg). vm_compute in Hg. discriminate.
  - left. reflexivity.
Qed.
