(** Which scripts a run processes, and in which groups. *)
From Verif Require Import GoStr GoStrFacts ModelSq SpecSql SqFacts ModelHistory HistoryFacts.
From Verif Require Import ModelMigrate SpecDb SpecMigrate MigrateFacts MigrateTrace MigrateBatch MigrateGroups.
From Coq Require Import ZifyBool ZifyNat.

(** ** Names *)
Lemma lf_only_replace s : lf_only s = replace2 CR LF [LF] s.
Proof.
  induction s as [s IH] using list_len_ind. destruct s as [|a [|b s]]; try reflexivity.
  cbn [lf_only replace2]. destruct (ceqb a CR && ceqb b LF) eqn:E.
  - apply andb_true_iff in E as [_ E]. destruct (ceqb_spec b LF) as [->|]; [|discriminate].
    rewrite <- (IH s) by (cbn; lia). destruct s; [reflexivity|].
    change (ceqb LF CR) with false. reflexivity.
  - f_equal. apply (IH (b :: s)). cbn; lia.
Qed.

Lemma repeatable_iff f : repeatable f = true <-> is_repeatable f.
Proof.
  unfold repeatable, is_repeatable, has_prefix. destruct (strip_prefix (B"repeatable/") f) as [g|] eqn:E.
  - apply strip_prefix_Some in E. split; [intros _; exists g; exact E|reflexivity].
  - split; [discriminate|]. intros (g & ->). rewrite strip_prefix_app in E. discriminate.
Qed.

Lemma asks_tx_iff f : has_suffix f (B".tx.sql") = true <-> asks_tx f.
Proof. apply has_suffix_iff. Qed.
Lemma asks_no_tx_iff f : has_suffix f (B".txoff.sql") = true <-> asks_no_tx f.
Proof. apply has_suffix_iff. Qed.

Lemma asks_both f : asks_tx f -> asks_no_tx f -> False.
Proof.
  intros (g & ->) (g' & E). apply (f_equal (@rev ascii)) in E.
  rewrite !rev_app_distr in E. cbn in E. congruence.
Qed.

Definition sharesb (d : dialect) (f : bytes) : bool := negb (dialect_eqb d MySQL) && negb (special_suffix f).
Lemma sharesb_iff d f : sharesb d f = true <-> shares d f.
Proof.
  unfold sharesb, shares, special_suffix. rewrite <- asks_tx_iff, <- asks_no_tx_iff.
  destruct d, (has_suffix f (B".tx.sql")), (has_suffix f (B".txoff.sql")); cbn; split; intros; try discriminate;
    try (repeat split; congruence); try reflexivity;
    repeat match goal with H : _ /\ _ |- _ => destruct H end; exfalso; auto; congruence.
Qed.

Lemma is_tx_single d m : is_tx d [m] = true <-> in_transaction d (m_name m).
Proof.
  unfold is_tx, in_transaction. rewrite <- asks_tx_iff, <- asks_no_tx_iff.
  destruct d, (has_suffix (m_name m) (B".tx.sql")), (has_suffix (m_name m) (B".txoff.sql")); cbn; split; intros H;
    try discriminate; try reflexivity; try (left; reflexivity); try (right; split; congruence);
    destruct H as [H|[H1 H2]]; congruence.
Qed.

Lemma shares_in_tx d f : shares d f -> in_transaction d f.
Proof. intros (H1 & H2 & H3). right. auto. Qed.

(** ** Grouping *)
Fixpoint batches (d : dialect) (ms q : list migration) : list (list migration) :=
  match ms with
  | [] => match q with [] => [] | _ => [q] end
  | m :: ms' => if must_flush d q m then q :: batches d ms' [m] else batches d ms' (q ++ [m])
  end.

Definition valid_group (d : dialect) (q : list migration) : Prop :=
  (q <> [] /\ Forall (fun m => shares d (m_name m)) q) \/ (exists m, q = [m] /\ ~ shares d (m_name m)).

Lemma group_run d q : forall rest gs, q <> [] -> Forall (shares d) q ->
  (match rest with [] => True | f' :: _ => ~ shares d f' end) ->
  grouping d rest gs -> grouping d (q ++ rest) (q :: gs).
Proof.
  induction q as [|f q IH]; intros rest gs Hq Hall Hn Hg; [congruence|].
  inversion Hall; subst. destruct q as [|f' q].
  - cbn [app]. apply grouping_last; assumption.
  - cbn [app]. apply grouping_join; [assumption|inversion H2; assumption|].
    apply (IH rest gs); [discriminate|assumption|exact Hn|exact Hg].
Qed.

Lemma must_flush_valid d q m : valid_group d q ->
  must_flush d q m = true <-> ~ (Forall (fun m => shares d (m_name m)) q /\ shares d (m_name m)).
Proof.
  intros [[Hq Hall]|(m0 & -> & Hn)].
  - destruct q as [|m0 q]; [congruence|]. cbn [must_flush].
    inversion Hall as [|? ? H0 Hq']; subst. pose proof H0 as H0b. apply sharesb_iff in H0b. unfold sharesb in H0b.
    apply andb_true_iff in H0b as [H1 H2]. apply negb_true_iff in H1, H2. rewrite H1, H2. cbn [orb].
    split.
    + intros Hs [_ Hm]. apply sharesb_iff in Hm. unfold sharesb in Hm. rewrite Hs in Hm. rewrite andb_false_r in Hm. discriminate.
    + intros Hn. destruct (special_suffix (m_name m)) eqn:Es; [reflexivity|]. exfalso. apply Hn. split; [exact Hall|].
      apply sharesb_iff. unfold sharesb. rewrite H1, Es. reflexivity.
  - cbn [must_flush]. split.
    + intros _ [Hall _]. inversion Hall; subst. contradiction.
    + intros _. destruct (dialect_eqb d MySQL) eqn:E1; [reflexivity|].
      destruct (special_suffix (m_name m0)) eqn:E2; [reflexivity|].
      exfalso. apply Hn. apply sharesb_iff. unfold sharesb. rewrite E1, E2. reflexivity.
Qed.

Lemma valid_single d m : valid_group d [m].
Proof.
  destruct (sharesb d (m_name m)) eqn:E.
  - left. split; [discriminate|]. constructor; [|constructor]. apply sharesb_iff. exact E.
  - right. exists m. split; [reflexivity|]. intros H. apply sharesb_iff in H. congruence.
Qed.

Lemma batches_grouping d ms : forall q, valid_group d q ->
  Forall (valid_group d) (batches d ms q)
  /\ concat (batches d ms q) = q ++ ms
  /\ grouping d (map m_name (q ++ ms)) (map (map m_name) (batches d ms q)).
Proof.
  induction ms as [|m ms IH]; intros q Hv; cbn [batches].
  - assert (Hq : q <> []) by (destruct Hv as [[H _]|(m & -> & _)]; [exact H|discriminate]).
    replace (match q with [] => [] | _ => [q] end) with [q] by (destruct q; congruence).
    split; [constructor; [exact Hv|constructor]|]. split; [cbn; rewrite !app_nil_r; reflexivity|].
    rewrite app_nil_r. cbn [map]. rewrite <- (app_nil_r (map m_name q)) at 1.
    destruct Hv as [[_ Hall]|(m & -> & Hn)].
    + apply group_run; [destruct q; [congruence|discriminate]|apply Forall_map; exact Hall|exact I|constructor].
    + cbn [map app]. apply grouping_alone; [exact Hn|constructor].
  - destruct (must_flush d q m) eqn:Ef.
    + apply (must_flush_valid d q m Hv) in Ef.
      destruct (IH [m] (valid_single d m)) as (I1 & I2 & I3).
      split; [constructor; assumption|]. cbn [concat map]. rewrite I2. split; [reflexivity|].
      rewrite map_app. cbn [app] in I3. destruct Hv as [[Hq Hall]|(m0 & -> & Hn)].
      * apply group_run; [destruct q; [congruence|discriminate]|apply Forall_map; exact Hall| |exact I3].
        cbn [map]. intros Hm. apply Ef. split; assumption.
      * cbn [map app]. apply grouping_alone; [exact Hn|exact I3].
    + assert (Hs : Forall (fun m => shares d (m_name m)) q /\ shares d (m_name m)).
      { pose proof (must_flush_valid d q m Hv) as Hiff.
        destruct (forallb (fun m => sharesb d (m_name m)) (m :: q)) eqn:Eb.
        - cbn [forallb] in Eb. apply andb_true_iff in Eb as [E1 E2]. split; [|apply sharesb_iff; exact E1].
          apply Forall_forall. intros m0 Hm0. rewrite forallb_forall in E2. apply sharesb_iff, E2. exact Hm0.
        - exfalso. rewrite (proj2 Hiff) in Ef; [discriminate|]. intros [H1 H2].
          cbn [forallb] in Eb. apply sharesb_iff in H2. rewrite H2 in Eb. cbn [andb] in Eb.
          assert (Et : forallb (fun m => sharesb d (m_name m)) q = true).
          { apply forallb_forall. intros m0 Hm0. rewrite Forall_forall in H1. apply sharesb_iff, H1. exact Hm0. }
          congruence. }
      destruct Hs as [Hs1 Hs2].
      destruct (IH (q ++ [m])) as (I1 & I2 & I3).
      { left. split; [destruct q; discriminate|]. apply Forall_app. split; [exact Hs1|constructor; [exact Hs2|constructor]]. }
      rewrite <- app_assoc in *. cbn [app] in *. auto.
Qed.

Lemma batches_start d ms :
  Forall (valid_group d) (batches d ms [])
  /\ concat (batches d ms []) = ms
  /\ grouping d (map m_name ms) (map (map m_name) (batches d ms [])).
Proof.
  destruct ms as [|m ms].
  - cbn. repeat constructor.
  - cbn [batches must_flush app]. apply (batches_grouping d ms [m]). apply valid_single.
Qed.

Lemma valid_is_tx d g : valid_group d g ->
  (is_tx d g = true /\ Forall (fun m => in_transaction d (m_name m)) g)
  \/ (is_tx d g = false /\ exists m, g = [m] /\ ~ in_transaction d (m_name m)).
Proof.
  intros [[Hq Hall]|(m & -> & Hn)].
  - left. split.
    + destruct g as [|m [|m' g]]; [congruence| |reflexivity].
      apply is_tx_single. inversion Hall; subst. apply shares_in_tx. assumption.
    + eapply Forall_impl; [|exact Hall]. intros m Hm. apply shares_in_tx. exact Hm.
  - destruct (is_tx d [m]) eqn:E.
    + left. split; [reflexivity|]. constructor; [|constructor]. apply is_tx_single. exact E.
    + right. split; [reflexivity|]. exists m. split; [reflexivity|]. intros H. apply is_tx_single in H. congruence.
Qed.

(** ** Reading the history *)
Definition entry (h : list row) (f : bytes) : migration :=
  match lookup f h with Some r => of_row r | None => fresh f end.

Lemma entry_name h f : m_name (entry h f) = f.
Proof. unfold entry. destruct (lookup f h) as [r|] eqn:E; [exact (lookup_name _ _ _ E)|reflexivity]. Qed.

Lemma load_entry names h files : NoDup (map r_name h) -> NoDup files -> incl files names ->
  load_migrations files (select_rows names h) = map (entry h) files.
Proof.
  intros Hh. induction files as [|f files IH]; intros Hn Hi; [reflexivity|].
  inversion Hn as [|? ? Hf Hn']; subst. cbn [load_migrations map].
  rewrite IH by (try assumption; intros x Hx; apply Hi; right; exact Hx). f_equal.
  destruct (bmem f files) eqn:E; [apply bmem_In in E; contradiction|].
  rewrite lookup_rev by (apply select_NoDup; exact Hh). rewrite lookup_select.
  assert (Hm : bmem f names = true) by (apply bmem_In, Hi; left; reflexivity).
  rewrite Hm. reflexivity.
Qed.

(** ** Decisions *)
Definition good_hash (c : config) : Prop := forall x, c_hash c x <> [].
Definition readable (c : config) (f : bytes) : Prop := c_dir c f <> None.

Definition due (c : config) (h : list row) (f : bytes) : migration :=
  if repeatable f then with_checksum (entry h f) (checksum_of c (contents_of c f)) else entry h f.

Lemma due_name c h f : m_name (due c h f) = f.
Proof. unfold due. destruct (repeatable f); apply entry_name. Qed.

Definition seen (c : config) (h : list row) : list row := if c_skip_history c then [] else h.

Lemma up_to_date_lookup c h f : NoDup (map r_name h) ->
  up_to_date c h f <->
  exists r, lookup f h = Some r /\ r_success r = true /\
    (is_repeatable f -> exists x, c_dir c f = Some x /\ r_checksum r = Some (c_hash c (lf_only x))).
Proof.
  intros Hh. split.
  - intros (r & Hr & <- & H). exists r. split; [apply NoDup_lookup_In; assumption|exact H].
  - intros (r & Hr & H). exists r. split; [eapply lookup_In; exact Hr|]. split; [eapply lookup_name; exact Hr|exact H].
Qed.

Lemma decide_entry c h f : good_hash c -> NoDup (map r_name h) -> readable c f ->
  (up_to_date c h f /\ decide c (entry h f) = Skip)
  \/ (~ up_to_date c h f /\ decide c (entry h f) = Keep (due c h f)).
Proof.
  intros Hg Hh Hr. unfold decide, due. rewrite entry_name.
  rewrite (up_to_date_lookup c h f Hh). unfold entry.
  destruct (repeatable f) eqn:Er.
  - destruct (c_dir c f) as [x|] eqn:Ed; [|exfalso; apply Hr; exact Ed].
    assert (Hc : contents_of c f = x) by (unfold contents_of; rewrite Ed; reflexivity).
    rewrite Hc. destruct (lookup f h) as [r|] eqn:El; cbn [of_row fresh m_valid m_success m_checksum].
    2:{ right. rewrite andb_false_r. split; [|reflexivity]. intros (r & Hx & _). discriminate. }
    rewrite andb_true_r. unfold checksum_of. rewrite <- lf_only_replace.
    destruct (beqb_spec (c_hash c (lf_only x)) (match r_checksum r with Some k => k | None => [] end)) as [E|E].
    + cbn [andb]. destruct (r_success r) eqn:Es.
      * left. split; [|reflexivity]. exists r. split; [reflexivity|]. split; [exact Es|]. intros _. exists x.
        split; [reflexivity|]. destruct (r_checksum r) as [k|]; [congruence|]. exfalso. exact (Hg _ E).
      * right. split; [|reflexivity]. intros (r' & [= <-] & Hs & _). congruence.
    + cbn [andb]. right. split; [|reflexivity]. intros (r' & [= <-] & _ & Hx).
      destruct Hx as (x' & [= <-] & Hx); [apply repeatable_iff; exact Er|]. rewrite Hx in E. congruence.
  - assert (Hnr : ~ is_repeatable f) by (intros H; apply repeatable_iff in H; congruence).
    destruct (lookup f h) as [r|] eqn:El; cbn [of_row fresh m_valid m_success andb].
    2:{ right. split; [|reflexivity]. intros (r & Hx & _). discriminate. }
    destruct (r_success r) eqn:Es.
    + left. split; [|reflexivity]. exists r. split; [reflexivity|]. split; [exact Es|]. intros H. contradiction.
    + right. split; [|reflexivity]. intros (r' & [= <-] & Hs & _). congruence.
Qed.

Lemma pending_seen c h files p : pending c h files p ->
  Forall (readable c) files -> good_hash c -> NoDup (map r_name h) ->
  forall q, plan c (map (entry (seen c h)) files) q = (batches (c_dialect c) (map (due c (seen c h)) p) q, Done).
Proof.
  intros Hp Hr Hg Hh.
  assert (Hh' : NoDup (map r_name (seen c h))) by (unfold seen; destruct (c_skip_history c); [constructor|exact Hh]).
  induction Hp as [|f fs p Hs Hu Hp IH|f fs p Hu Hp IH]; intros q.
  - reflexivity.
  - inversion Hr; subst. cbn [map plan].
    destruct (decide_entry c (seen c h) f Hg Hh') as [[_ ->]|[Hn _]]; [assumption|apply IH; assumption|].
    exfalso. apply Hn. unfold seen. rewrite Hs. exact Hu.
  - inversion Hr; subst. cbn [map plan].
    destruct (decide_entry c (seen c h) f Hg Hh') as [[Hn _]|[_ ->]]; [assumption| |].
    + exfalso. unfold seen in Hn. destruct (c_skip_history c).
      * destruct Hn as (r & [] & _).
      * destruct Hu as [Hu|Hu]; [discriminate|contradiction].
    + cbn [batches]. destruct (must_flush (c_dialect c) q (due c (seen c h) f)).
      * rewrite IH by assumption. reflexivity.
      * apply IH. assumption.
Qed.

Lemma pending_exists c h files : Forall (readable c) files -> good_hash c -> NoDup (map r_name h) ->
  exists p, pending c h files p.
Proof.
  intros Hr Hg Hh. induction Hr as [|f fs Hf Hr IH]; [exists []; constructor|].
  destruct IH as (p & Hp). destruct (c_skip_history c) eqn:Es.
  - exists (f :: p). apply pending_due; [left; exact Es|exact Hp].
  - destruct (decide_entry c h f Hg Hh Hf) as [[H _]|[H _]].
    + exists p. apply pending_done; assumption.
    + exists (f :: p). apply pending_due; [right; exact H|exact Hp].
Qed.

Lemma pending_unique c h files p1 : pending c h files p1 -> forall p2, pending c h files p2 -> p1 = p2.
Proof.
  induction 1 as [|f fs p Hs Hu Hp IH|f fs p Hu Hp IH]; intros p2 H2; inversion H2 as [|f' fs' p' Hs' Hu' Hp'|f' fs' p' Hu' Hp']; subst.
  - reflexivity.
  - apply IH. assumption.
  - exfalso. destruct Hu' as [Hu'|Hu']; [congruence|contradiction].
  - exfalso. destruct Hu as [Hu|Hu]; [congruence|contradiction].
  - f_equal. apply IH. assumption.
Qed.

Lemma pending_In c h files p : pending c h files p ->
  forall f, In f p <-> In f files /\ (c_skip_history c = true \/ ~ up_to_date c h f).
Proof.
  induction 1 as [|g fs p Hs Hu Hp IH|g fs p Hu Hp IH]; intros f.
  - cbn. tauto.
  - rewrite IH. cbn [In]. split; [tauto|]. intros [[->|Hi] Hn]; [|tauto].
    exfalso. destruct Hn as [Hn|Hn]; [congruence|contradiction].
  - cbn [In]. rewrite IH. split; [|tauto]. intros [->|Hi]; tauto.
Qed.

Lemma pending_NoDup c h files p : pending c h files p -> NoDup files -> NoDup p.
Proof.
  induction 1 as [|g fs p Hs Hu Hp IH|g fs p Hu Hp IH]; intros Hn.
  - constructor.
  - inversion Hn; subst. auto.
  - inversion Hn as [|? ? Hg Hn']; subst. constructor; [|auto].
    intros Hi. apply Hg. apply (pending_In _ _ _ _ Hp) in Hi. tauto.
Qed.

(** ** Inputs for which the history is read correctly *)
Record clean (c : config) (walk args files : list bytes) : Prop := {
  cl_files : selected_files c walk args = Some files;
  cl_nodup : NoDup files;
  cl_names : c_skip_history c = false -> Forall (plain_name (c_dialect c)) files;
  cl_read : Forall (readable c) files;
  cl_hash : good_hash c
}.
(** The query delivered all its rows. *)
Definition full_read (t : list event) : Prop := forall n, ~ In (OpQuery, RVal n) t.

(** A run with clean inputs: nothing, or the groups of the pending scripts. *)
Inductive clean_run (c : config) (h : list row) (p : list bytes) : list event -> outcome -> Prop :=
| cr_nothing t : Forall (fun e => neutral e = true) t -> clean_run c h p t Failed
| cr_run t0 t o : Forall (fun e => neutral e = true) t0 ->
    groups_trace c Done (batches (c_dialect c) (map (due c (seen c h)) p) []) t o ->
    clean_run c h p (t0 ++ t) o.

Lemma migrate_clean c walk args files h p rs t o :
  clean c walk args files -> NoDup (map r_name h) -> pending c h files p ->
  migrate c walk args h rs = (t, o) -> full_read t -> clean_run c h p t o.
Proof.
  intros [Hf Hn Hnm Hr Hg] Hh Hp H Hfull. apply migrate_migrate_trace in H.
  assert (Heq : forall l, pending c h files l -> l = p) by (intros l Hl; eapply pending_unique; eassumption).
  inversion H as [Hs|files' t' o' Hs Hsk Ht|files' r Hs Hsk _|files' names r l a Hs Hsk Hk Hq
                 |files' names r r' t' o' Hs Hsk Hk Hq Hk' Ht]; subst.
  - apply cr_nothing. constructor.
  - assert (files' = files) by congruence. subst files'.
    pose proof (pending_seen c h files p Hp Hr Hg Hh []) as Hpl.
    assert (Hfr : map (entry (seen c h)) files = map fresh files).
    { unfold seen. rewrite Hsk. apply map_ext. reflexivity. }
    rewrite Hfr in Hpl. rewrite Hpl in Ht. cbn [fst snd] in Ht.
    apply (cr_run c h p [] t o); [constructor|exact Ht].
  - apply cr_nothing. repeat constructor.
  - apply cr_nothing. repeat constructor.
  - assert (files' = files) by congruence. subst files'.
    assert (Hd : delivered r' (select_rows names h) = select_rows names h).
    { destruct r' as [|l a|n]; [reflexivity|discriminate|]. exfalso. apply (Hfull n). right. left. reflexivity. }
    assert (Hl : load_migrations files (delivered r' (select_rows names h)) = map (entry (seen c h)) files).
    { rewrite Hd. unfold seen. rewrite Hsk. apply load_entry; [exact Hh|exact Hn|].
      destruct files as [|f files]; [intros ? []|].
      rewrite (query_names_plain _ (f :: files)) in Hq; [|discriminate|exact (Hnm Hsk)]. injection Hq as <-. apply incl_refl. }
    rewrite Hl, (pending_seen c h files p Hp Hr Hg Hh []) in Ht. cbn [fst snd] in Ht.
    apply (cr_run c h p [(OpEnsure, r); (OpQuery, r')] t' o); [repeat constructor|exact Ht].
Qed.

Lemma interp_neutral t : forall s, Forall (fun e => neutral e = true) t -> interp s t = s.
Proof.
  induction t as [|e t IH]; intros s H; [reflexivity|]. inversion H; subst.
  change (interp s (e :: t)) with (interp (step s e) t). rewrite step_neutral by assumption. apply IH. assumption.
Qed.
