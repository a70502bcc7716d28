(** Safety of migrate: recorded scripts are applied (C15), batches are atomic (C16),
    successful scripts are not run again (C17, C18), progress (C19). *)
From Verif Require Import GoStr GoStrFacts ModelSq SpecSql SqFacts ModelHistory HistoryFacts.
From Verif Require Import ModelMigrate SpecDb SpecMigrate MigrateFacts MigrateTrace MigrateBatch MigrateGroups MigratePlan.
From Coq Require Import ZifyBool ZifyNat.

(** ** C15: a success row is written only right after its script *)
Definition justified (c : config) (last : option (bytes * bytes)) (r : row) : Prop :=
  r_success r = true ->
  exists x, last = Some (r_name r, x) /\ c_dir c (r_name r) = Some x
    /\ (repeatable (r_name r) = true -> r_checksum r = Some (checksum_of c x)).

Fixpoint guarded (c : config) (last : option (bytes * bytes)) (t : list event) : Prop :=
  match t with
  | [] => True
  | (o, r) :: t' =>
      match o with
      | OpExec f x => guarded c (if is_ok r then Some (f, x) else None) t'
      | OpUpsert rows => (forall row, In row rows -> justified c last row) /\ guarded c None t'
      | _ => guarded c None t'
      end
  end.
Definition guarded_any (c : config) (t : list event) : Prop := forall last, guarded c last t.

Lemma guarded_app c a : forall last b, guarded c last a -> guarded_any c b -> guarded c last (a ++ b).
Proof.
  induction a as [|[o r] a IH]; intros last b Ha Hb; [apply Hb|].
  cbn [app guarded] in *. destruct o; try (apply IH; assumption). destruct Ha. split; [assumption|apply IH; assumption].
Qed.
Lemma guarded_any_app c a b : guarded_any c a -> guarded_any c b -> guarded_any c (a ++ b).
Proof. intros Ha Hb last. apply guarded_app; [apply Ha|exact Hb]. Qed.
Lemma guarded_prefix c p : forall last t, prefix p t -> guarded c last t -> guarded c last p.
Proof.
  induction p as [|[o r] p IH]; intros last t [q ->] H; [exact I|].
  cbn [app guarded] in *. destruct o; try (eapply IH; [exists q; reflexivity|exact H]).
  destruct H. split; [assumption|]. eapply IH; [exists q; reflexivity|assumption].
Qed.

Definition key_ok (c : config) (k : bytes * bytes) : Prop :=
  repeatable (fst k) = true -> forall x, c_dir c (fst k) = Some x -> snd k = checksum_of c x.
Definition queue_ok (c : config) (q : list migration) : Prop := Forall (key_ok c) (map key q).

Lemma rolled_guarded c tx b : rolled tx b -> guarded_any c b.
Proof. inversion 1; intros last; cbn; auto. Qed.

Lemma success_justified c m x : key_ok c (key m) -> c_dir c (m_name m) = Some x ->
  forall row, In row [success_row m] -> justified c (Some (m_name m, x)) row.
Proof.
  intros Hk Hd row [<-|[]] _. exists x. split; [reflexivity|]. split; [exact Hd|].
  intros Hr. cbn [success_row r_checksum]. f_equal. apply Hk; assumption.
Qed.

Lemma loop_trace_guarded c tx done q t res :
  loop_trace c tx done q t res -> queue_ok c q -> guarded_any c t.
Proof.
  induction 1 as [done r Htx Hr|done l a Htx|done Htx|done m rest b Hd Hb|done m rest x l a b Hd Hb
    |done m rest x r t res Hd Hr Hs Ht IH|done m rest x r r' t res Hd Hr Hs Hr' Ht IH|done m rest x r l a b Hd Hr Hs Hb];
    intros Hq last.
  - exact I.
  - exact I.
  - exact I.
  - eapply rolled_guarded. exact Hb.
  - cbn [guarded is_ok]. eapply rolled_guarded. exact Hb.
  - inversion Hq; subst. cbn [guarded]. rewrite Hr. apply IH. assumption.
  - inversion Hq; subst. cbn [guarded]. rewrite Hr. split; [apply success_justified; assumption|]. apply IH. assumption.
  - inversion Hq; subst. cbn [guarded]. rewrite Hr. split; [apply success_justified; assumption|].
    eapply rolled_guarded. exact Hb.
Qed.

Lemma run_trace_guarded c q t res : run_trace c q t res -> queue_ok c q -> guarded_any c t.
Proof.
  inversion 1; subst; intros Hq last.
  - exact I.
  - cbn [guarded]. eapply loop_trace_guarded; eassumption.
  - eapply loop_trace_guarded; eassumption.
Qed.

Lemma retry_trace_guarded c re k q t o : retry_trace c re k q t o -> queue_ok c q -> guarded_any c t.
Proof.
  assert (Hu : forall q u, undone c re q u -> guarded_any c u) by (inversion 1; subst; intros last; cbn; auto).
  induction 1 as [k q t n q' Hr|k q t n q' Hr _ _ _|k q t n q' Hr _ _ _ _|k q t n q' r Hr Hre Hd Hk Hn Hneg
                  |k q t n q' r r' t' o Hr Hre Hd Hk Hn Hneg Ht IH|k q t n l q' u Hr Hl Hun Hqn|k q t n l q' u r Hr Hl Hun Hn Hs];
    intros Hq; pose proof (run_trace_guarded _ _ _ _ Hr Hq) as Hg; pose proof (run_trace_shape _ _ _ _ _ _ Hr) as (Hk' & _).
  - exact Hg.
  - exact Hg.
  - exact Hg.
  - apply guarded_any_app; [exact Hg|]. intros last. exact I.
  - apply guarded_any_app; [exact Hg|]. intros last. cbn [guarded]. apply IH. unfold queue_ok in *. rewrite Hk'. exact Hq.
  - apply guarded_any_app; [exact Hg|eapply Hu; exact Hun].
  - apply guarded_any_app; [exact Hg|]. apply guarded_any_app; [eapply Hu; exact Hun|].
    intros last. split; [|exact I]. intros row Hin Hsucc. apply in_map_iff in Hin as (m & <- & _). discriminate.
Qed.

Lemma batch_trace_guarded c q t o : batch_trace c q t o -> queue_ok c q -> guarded_any c t.
Proof.
  inversion 1; subst; intros Hq; try (eapply retry_trace_guarded; eassumption). intros last. exact I.
Qed.

Lemma groups_guarded c fin gs t o :
  groups_trace c fin gs t o -> Forall (queue_ok c) gs -> guarded_any c t.
Proof.
  induction 1 as [|g gs t t' o Hb Hg IH|g gs t o Hb Ho]; intros Hq.
  - intros last. exact I.
  - inversion Hq; subst. apply guarded_any_app; [eapply batch_trace_guarded; eassumption|apply IH; assumption].
  - inversion Hq; subst. eapply batch_trace_guarded; eassumption.
Qed.

Lemma decide_ok c m m' : decide c m = Keep m' -> key_ok c (key m') /\ m_name m' = m_name m.
Proof.
  unfold decide. destruct (repeatable (m_name m)) eqn:Er.
  - destruct (c_dir c (m_name m)) as [x|] eqn:Ed; [|discriminate].
    destruct (_ && _ && _); [discriminate|]. intros [= <-]. split; [|reflexivity].
    intros _ x' Hx. cbn in *. congruence.
  - destruct (m_valid m && m_success m); [discriminate|]. intros [= <-]. split; [|reflexivity].
    intros H. cbn in H. congruence.
Qed.

Lemma plan_ok c ms : forall q, queue_ok c q -> Forall (queue_ok c) (fst (plan c ms q)).
Proof.
  induction ms as [|m ms IH]; intros q Hq; cbn [plan].
  - destruct q; cbn [fst]; [constructor|]. constructor; [exact Hq|constructor].
  - destruct (decide c m) as [| |m'] eqn:Ed; [apply IH; exact Hq|constructor|].
    apply decide_ok in Ed as [Ed _].
    destruct (must_flush (c_dialect c) q m').
    + specialize (IH [m']). destruct (plan c ms [m']) as [gs f]. cbn [fst] in *.
      constructor; [exact Hq|]. apply IH. constructor; [exact Ed|constructor].
    + apply IH. unfold queue_ok. rewrite map_app. apply Forall_app. split; [exact Hq|]. constructor; [exact Ed|constructor].
Qed.

Lemma migrate_guarded c walk args h t o : migrate_trace c walk args h t o -> guarded_any c t.
Proof.
  assert (H0 : queue_ok c []) by constructor.
  inversion 1; subst; intros last; try exact I.
  - eapply groups_guarded; [eassumption|]. apply plan_ok. exact H0.
  - cbn [guarded]. eapply groups_guarded; [eassumption|]. apply plan_ok. exact H0.
Qed.

(** The invariant of the store. *)
Definition backed (c : config) (s x : store) : Prop :=
  exists new, data x = data s ++ new /\
  forall r, In r (hist x) -> r_success r = true ->
    In r (hist s) \/ exists y, c_dir c (r_name r) = Some y /\ In (Applied (r_name r) y) new
                      /\ (repeatable (r_name r) = true -> r_checksum r = Some (checksum_of c y)).

Lemma In_upsert r row h : In r (upsert row h) -> r = row \/ In r h.
Proof.
  induction h as [|x h IH]; cbn [upsert]; [intros [<-|[]]; left; reflexivity|].
  destruct (beqb (r_name x) (r_name row)).
  - intros [<-|H]; [left; reflexivity|right; right; exact H].
  - intros [<-|H]; [right; left; reflexivity|]. destruct (IH H) as [->|H']; [left; reflexivity|right; right; exact H'].
Qed.
Lemma In_upsert_all rows : forall r h, In r (upsert_all rows h) -> In r rows \/ In r h.
Proof.
  unfold upsert_all. induction rows as [|row rows IH]; intros r h H; [right; exact H|].
  cbn [fold_left] in H. apply IH in H as [H|H]; [left; right; exact H|].
  apply In_upsert in H as [->|H]; [left; left; reflexivity|right; exact H].
Qed.

Definition has_last (s : store) (x : store) (last : option (bytes * bytes)) : Prop :=
  match last with
  | None => True
  | Some (f, y) => exists new, data x = data s ++ new /\ In (Applied f y) new
  end.

Lemma backed_effect c s x e : backed c s x -> backed c s {| data := data x ++ [e]; hist := hist x |}.
Proof.
  intros (new & Hd & H). exists (new ++ [e]). cbn [data hist]. split; [rewrite Hd, app_assoc; reflexivity|].
  intros r Hr Hs. destruct (H r Hr Hs) as [Hi|(y & Hy & Hin & Hc)]; [left; exact Hi|right].
  exists y. split; [exact Hy|]. split; [apply in_or_app; left; exact Hin|exact Hc].
Qed.
Lemma backed_rows c s x rows last : backed c s x -> has_last s x last ->
  (forall row, In row rows -> justified c last row) ->
  backed c s {| data := data x; hist := upsert_all rows (hist x) |}.
Proof.
  intros (new & Hd & H) Hl Hj. exists new. cbn [data hist]. split; [exact Hd|].
  intros r Hr Hs. apply In_upsert_all in Hr as [Hr|Hr]; [|apply H; assumption].
  right. destruct (Hj r Hr Hs) as (y & -> & Hy & Hc). exists y. split; [exact Hy|]. split; [|exact Hc].
  destruct Hl as (new' & Hd' & Hin). rewrite Hd in Hd'. apply app_inv_head in Hd'. subst new'. exact Hin.
Qed.

Lemma guarded_backed c s t : forall st last, guarded c last t ->
  backed c s (committed st) -> backed c s (current st) -> has_last s (current st) last ->
  backed c s (committed (interp st t)).
Proof.
  induction t as [|[o r] t IH]; intros st last Hg Hc Hw Hl; [exact Hc|].
  change (interp st ((o, r) :: t)) with (interp (step st (o, r)) t). cbn [guarded] in Hg.
  assert (Hupd : forall st x, backed c s (committed st) -> backed c s x ->
            backed c s (committed (update st x)) /\ backed c s (current (update st x))).
  { intros st0 x H1 H2. unfold update, current. destruct (working st0); cbn; auto. }
  destruct o; try (apply (IH _ None); [exact Hg|exact Hc|exact Hw|exact I]).
  - (* begin *) apply (IH _ None); [exact Hg| | |exact I]; cbn [step]; destruct (is_ok r); cbn; try assumption.
  - (* exec *)
    assert (Hstep : (exists e, step st (OpExec f contents, r) = add_effect e st /\ (is_ok r = true -> e = Applied f contents))
                    \/ (step st (OpExec f contents, r) = st /\ is_ok r = false)).
    { cbn [step]. destruct r as [|l [|]|n]; [left|left|right|left]; eauto. eexists. split; [reflexivity|discriminate]. }
    destruct Hstep as [(e & -> & He)|[-> Hf]].
    + unfold add_effect. destruct (Hupd st {| data := data (current st) ++ [e]; hist := hist (current st) |}) as [U1 U2];
        [exact Hc|apply backed_effect; exact Hw|].
      eapply IH; [exact Hg|exact U1|exact U2|]. destruct (is_ok r); [|exact I].
      rewrite (He eq_refl). destruct Hw as (new & Hd & _). exists (new ++ [Applied f contents]).
      unfold update, current. split; [|apply in_or_app; right; left; reflexivity].
      unfold current in Hd. destruct (working st); cbn; cbn in Hd; rewrite Hd, app_assoc; reflexivity.
    + rewrite Hf in Hg. eapply IH; [exact Hg|exact Hc|exact Hw|exact I].
  - (* upsert *)
    destruct Hg as [Hj Hg]. rewrite step_upsert. destruct (took_effect r).
    + unfold write_rows. destruct (Hupd st {| data := data (current st); hist := upsert_all rows (hist (current st)) |}) as [U1 U2];
        [exact Hc|eapply backed_rows; eassumption|]. eapply IH; [exact Hg|exact U1|exact U2|exact I].
    + eapply IH; [exact Hg|exact Hc|exact Hw|exact I].
  - (* commit *) apply (IH _ None); [exact Hg| | |exact I]; clear IH Hg Hl Hupd; destruct st as [cm [w|]];
      destruct r as [|[|] [|]|n]; cbn in *; assumption.
  - (* rollback *) apply (IH _ None); [exact Hg|exact Hc|exact Hc|exact I].
  - (* undo *)
    assert (Hstep : step st (OpUndo f contents, r) = add_effect (Undone f contents) st \/ step st (OpUndo f contents, r) = st).
    { cbn [step]. destruct r as [|l [|]|n]; auto. }
    destruct Hstep as [-> | ->]; [|apply (IH _ None); [exact Hg|exact Hc|exact Hw|exact I]].
    unfold add_effect. destruct (Hupd st {| data := data (current st) ++ [Undone f contents]; hist := hist (current st) |}) as [U1 U2];
        [exact Hc|apply backed_effect; exact Hw|]. apply (IH _ None); [exact Hg|exact U1|exact U2|exact I].
Qed.

Lemma migrate_backed c walk args s rs t o p :
  migrate c walk args (hist s) rs = (t, o) -> prefix p t ->
  exists new, data (after s p) = data s ++ new /\
  forall r, In r (hist (after s p)) -> r_success r = true ->
    In r (hist s) \/ exists y, c_dir c (r_name r) = Some y /\ In (Applied (r_name r) y) new
                      /\ (is_repeatable (r_name r) -> r_checksum r = Some (c_hash c (lf_only y))).
Proof.
  intros H Hp. apply migrate_migrate_trace in H. apply migrate_guarded in H.
  assert (Hb : backed c s (after s p)).
  { eapply (guarded_backed c s p (start s) None).
    - eapply guarded_prefix; [exact Hp|apply H].
    - exists []. rewrite app_nil_r. split; [reflexivity|]. intros r Hr _. left. exact Hr.
    - exists []. rewrite app_nil_r. split; [reflexivity|]. intros r Hr _. left. exact Hr.
    - exact I. }
  destruct Hb as (new & Hd & Hb). exists new. split; [exact Hd|]. intros r Hr Hs.
  destruct (Hb r Hr Hs) as [Hi|(y & Hy & Hin & Hc)]; [left; exact Hi|right].
  exists y. split; [exact Hy|]. split; [exact Hin|]. intros Hrep. apply repeatable_iff in Hrep.
  rewrite (Hc Hrep). unfold checksum_of. rewrite lf_only_replace. reflexivity.
Qed.

(** ** Keys of the history table stay distinct *)
Lemma interp_keyed t : forall st,
  NoDup (map r_name (hist (committed st))) -> NoDup (map r_name (hist (current st))) ->
  NoDup (map r_name (hist (committed (interp st t)))).
Proof.
  induction t as [|[o r] t IH]; intros st Hc Hw; [exact Hc|].
  change (interp st ((o, r) :: t)) with (interp (step st (o, r)) t).
  assert (Hupd : forall st x, NoDup (map r_name (hist (committed st))) -> NoDup (map r_name (hist x)) ->
            NoDup (map r_name (hist (committed (update st x)))) /\ NoDup (map r_name (hist (current (update st x))))).
  { intros st0 x H1 H2. unfold update, current. destruct (working st0); cbn; auto. }
  assert (Hae : forall e, NoDup (map r_name (hist (committed (interp (add_effect e st) t))))).
  { intros e. unfold add_effect. destruct (Hupd st {| data := data (current st) ++ [e]; hist := hist (current st) |}) as [U1 U2];
      [exact Hc|exact Hw|]. apply IH; assumption. }
  destruct o; try (apply IH; assumption).
  - apply IH; cbn [step]; destruct (is_ok r); cbn; assumption.
  - cbn [step]. destruct r as [|l [|]|n]; try apply Hae. apply IH; assumption.
  - rewrite step_upsert. destruct (took_effect r); [|apply IH; assumption]. unfold write_rows.
    destruct (Hupd st {| data := data (current st); hist := upsert_all rows (hist (current st)) |}) as [U1 U2];
      [exact Hc|apply upsert_all_NoDup; exact Hw|]. apply IH; assumption.
  - apply IH; clear IH Hupd Hae; destruct st as [cm [w|]];
      destruct r as [|[|] [|]|n]; cbn in *; assumption.
  - cbn [step]. destruct r as [|l [|]|n]; try apply Hae. apply IH; assumption.
Qed.

Lemma after_keyed s p : NoDup (map r_name (hist s)) -> NoDup (map r_name (hist (after s p))).
Proof. intros H. apply interp_keyed; exact H. Qed.

(** ** Rows of other scripts stay *)
Lemma interp_other c names t : forall st f, Forall (batch_event c names) t -> ~ In f names ->
  lookup f (hist (committed (interp st t))) = lookup f (hist (committed st))
  \/ lookup f (hist (committed (interp st t))) = lookup f (hist (current st)).
Proof.
  induction t as [|[o r] t IH]; intros st f Hall Hf; [left; reflexivity|]. inversion Hall as [|? ? He Ht]; subst.
  change (interp st ((o, r) :: t)) with (interp (step st (o, r)) t).
  assert (Hst : (lookup f (hist (committed (step st (o, r)))) = lookup f (hist (committed st))
                 \/ lookup f (hist (committed (step st (o, r)))) = lookup f (hist (current st)))
                /\ (lookup f (hist (current (step st (o, r)))) = lookup f (hist (committed st))
                 \/ lookup f (hist (current (step st (o, r)))) = lookup f (hist (current st)))).
  { clear IH Ht Hall.
    assert (Hl : forall rows, o = OpUpsert rows -> forall h, lookup f (upsert_all rows h) = lookup f h).
    { intros rows -> h. destruct He as [_ He]. apply lookup_upsert_other. intros Hin.
      apply in_map_iff in Hin as (r0 & <- & Hr0). apply Hf, He, Hr0. }
    clear He. destruct st as [cm [w|]], o; try (specialize (Hl _ eq_refl)); try (destruct r as [|[|] [|]|n]);
      unfold current; cbn [step is_ok add_effect write_rows commit abort update current committed working hist];
      unfold add_effect, write_rows, commit, abort, update, current; cbn [committed working hist];
      rewrite ?Hl; auto. }
  destruct Hst as [H1 H2]. destruct (IH (step st (o, r)) f Ht Hf) as [-> | ->]; [exact H1|exact H2].
Qed.

Lemma after_other c names t s f : Forall (batch_event c names) t -> ~ In f names ->
  lookup f (hist (after s t)) = lookup f (hist s).
Proof.
  intros Ht Hf. unfold after, survives. destruct (interp_other c names t (start s) f Ht Hf) as [-> | ->]; reflexivity.
Qed.

(** ** Events of a clean run *)
Lemma clean_events c h p t o : clean_run c h p t o ->
  Forall (fun e => neutral e = true \/ batch_event c p e) t.
Proof.
  inversion 1 as [? Hn|t0 t1 o' Hn Hg]; subst.
  - eapply Forall_impl; [|exact Hn]. auto.
  - apply Forall_app. split; [eapply Forall_impl; [|exact Hn]; auto|].
    apply groups_events in Hg. destruct (batches_start (c_dialect c) (map (due c (seen c h)) p)) as (_ & Hc & _).
    rewrite Hc, map_map in Hg. rewrite (map_ext _ (fun f => f)) in Hg by (intros; apply due_name). rewrite map_id in Hg.
    eapply Forall_impl; [|exact Hg]. auto.
Qed.

Lemma clean_point c s p t o q : clean_run c (hist s) p t o -> prefix q t ->
  at_point c s (batches (c_dialect c) (map (due c (seen c (hist s))) p) []) q (after s q).
Proof.
  intros H Hq. unfold after, survives. inversion H as [? Hn|t0 t1 o' Hn Hg]; subst.
  - rewrite interp_neutral; [apply at_point_start|eapply prefix_Forall; eassumption].
  - apply prefix_app in Hq as [Hq|(q' & -> & Hq)].
    + rewrite interp_neutral; [apply at_point_start|eapply prefix_Forall; eassumption].
    + rewrite interp_app, (interp_neutral t0) by exact Hn.
      destruct (batches_start (c_dialect c) (map (due c (seen c (hist s))) p)) as (Hv & _ & _).
      eapply groups_point in Hg; [|eapply Forall_impl; [|exact Hv]; intros g [[Hne _]|(m & -> & _)]; [exact Hne|discriminate]|exact Hq].
      destruct Hg as [k sk es Hr Hnl Hsk Hx].
      apply (ap_between c s _ (t0 ++ q') _ k sk es); [exact Hr| |exact Hsk|].
      * intros [Hl|Hl]; apply Hnl; [left; apply Forall_app in Hl; tauto|right; exact Hl].
      * destruct Hx as [Hx|[Hx|[(k' & g & rows & E1 & E2 & E3 & E4 & E5 & E6)|Hx]]]; [left; exact Hx|right; left; exact Hx| |right; right; right; exact Hx].
        right. right. left. exists k', g, rows. split; [exact E1|]. split; [exact E2|]. split; [exact E3|].
        split; [exact E4|]. split; [|exact E6]. apply went_on_app. exact E5.
Qed.

(** ** C17: sequences of runs *)
Inductive runs_seq : store -> list event -> store -> Prop :=
| rs_nil s : runs_seq s [] s
| rs_cons c walk args files rs t o p s evs s' :
    clean c walk args files -> c_skip_history c = false ->
    migrate c walk args (hist s) rs = (t, o) -> full_read t -> prefix p t ->
    runs_seq (after s p) evs s' -> runs_seq s (p ++ evs) s'.

Lemma no_exec_up_to_date c walk args files rs t o s f :
  clean c walk args files -> c_skip_history c = false -> NoDup (map r_name (hist s)) ->
  migrate c walk args (hist s) rs = (t, o) -> full_read t -> up_to_date c (hist s) f ->
  (forall x rep, ~ In (OpExec f x, rep) t) /\
  (forall p, prefix p t -> lookup f (hist (after s p)) = lookup f (hist s)).
Proof.
  intros Hcl Hsk Hh Hm Hfull Hu.
  destruct (pending_exists c (hist s) files (cl_read _ _ _ _ Hcl) (cl_hash _ _ _ _ Hcl) Hh) as (p & Hp).
  pose proof (migrate_clean _ _ _ _ _ _ _ _ _ Hcl Hh Hp Hm Hfull) as Hrun.
  assert (Hnp : ~ In f p).
  { intros Hi. apply (pending_In _ _ _ _ Hp) in Hi as [_ [Hi|Hi]]; [congruence|contradiction]. }
  pose proof (clean_events _ _ _ _ _ Hrun) as Hev. split.
  - intros x rep Hin. rewrite Forall_forall in Hev. destruct (Hev _ Hin) as [He|He]; [discriminate|].
    destruct He as [He _]. contradiction.
  - intros q Hq. unfold after, survives. inversion Hrun as [? Hn|t0 t1 o' Hn Hg]; subst.
    + rewrite interp_neutral; [reflexivity|eapply prefix_Forall; eassumption].
    + apply prefix_app in Hq as [Hq|(q' & -> & Hq)].
      * rewrite interp_neutral; [reflexivity|eapply prefix_Forall; eassumption].
      * rewrite interp_app, (interp_neutral t0) by exact Hn.
        apply groups_events in Hg. destruct (batches_start (c_dialect c) (map (due c (seen c (hist s))) p)) as (_ & Hc & _).
        rewrite Hc, map_map in Hg. rewrite (map_ext _ (fun f => f)) in Hg by (intros; apply due_name). rewrite map_id in Hg.
        change (committed (interp (start s) q')) with (after s q').
        eapply after_other; [eapply prefix_Forall; [exact Hq|exact Hg]|exact Hnp].
Qed.

Lemma never_again s evs s' r :
  runs_seq s evs s' -> NoDup (map r_name (hist s)) ->
  In r (hist s) -> r_success r = true -> ~ is_repeatable (r_name r) ->
  (forall x rep, ~ In (OpExec (r_name r) x, rep) evs) /\ In r (hist s').
Proof.
  induction 1 as [s|c walk args files rs t o p s evs s' Hcl Hsk Hm Hfull Hpre Hruns IH]; intros Hh Hin Hs Hnr.
  - split; [intros x rep []|exact Hin].
  - assert (Hu : up_to_date c (hist s) (r_name r)).
    { exists r. split; [exact Hin|]. split; [reflexivity|]. split; [exact Hs|]. intros H. contradiction. }
    destruct (no_exec_up_to_date _ _ _ _ _ _ _ _ _ Hcl Hsk Hh Hm Hfull Hu) as [Hno Hkeep].
    assert (Hin' : In r (hist (after s p))).
    { eapply lookup_In. rewrite (Hkeep p Hpre). apply NoDup_lookup_In; assumption. }
    destruct (IH (after_keyed s p Hh) Hin' Hs Hnr) as [I1 I2]. split; [|exact I2].
    intros x rep Hx. apply in_app_or in Hx as [Hx|Hx]; [|exact (I1 x rep Hx)].
    apply (Hno x rep). destruct Hpre as [q ->]. apply in_or_app. left. exact Hx.
Qed.
