(** Interrupted and repeated runs (C18, C29, C30, C53, C54). *)
From Verif Require Import GoStr GoStrFacts ModelSq SpecSql SqFacts ModelHistory HistoryFacts.
From Verif Require Import ModelMigrate SpecDb SpecMigrate MigrateFacts MigrateTrace MigrateBatch MigrateGroups MigratePlan MigrateSafety MigrateLive MigrateRetry.
From Coq Require Import ZifyBool ZifyNat.

Lemma NoDup_app_remove_l {A} (a b : list A) : NoDup (a ++ b) -> NoDup b.
Proof. induction a as [|x a IH]; intros H; [exact H|]. inversion H; subst. apply IH. assumption. Qed.
Lemma NoDup_app_remove_r {A} (a b : list A) : NoDup (a ++ b) -> NoDup a.
Proof.
  induction a as [|x a IH]; intros H; [constructor|]. inversion H as [|? ? Hx Hn]; subst. constructor; [|apply IH; exact Hn].
  intros Hi. apply Hx, in_or_app. left. exact Hi.
Qed.

(** ** Pending scripts as a filter *)
Lemma pending_filter c h (b : bytes -> bool) files : 
  (forall f, In f files -> (b f = true <-> (c_skip_history c = true \/ ~ up_to_date c h f))) ->
  (forall f, In f files -> b f = false -> c_skip_history c = false /\ up_to_date c h f) ->
  pending c h files (filter b files).
Proof.
  induction files as [|f files IH]; intros H1 H2; cbn [filter]; [constructor|].
  assert (Hp : pending c h files (filter b files)) by (apply IH; intros g Hg; [apply H1|apply H2]; right; exact Hg).
  destruct (b f) eqn:E.
  - apply pending_due; [apply H1; [left; reflexivity|exact E]|exact Hp].
  - destruct (H2 f (or_introl eq_refl) E). apply pending_done; assumption.
Qed.

Definition dueb (c : config) (h : list row) (f : bytes) : bool :=
  c_skip_history c || match decide c (entry h f) with Skip => false | _ => true end.

Lemma dueb_spec c h f : good_hash c -> NoDup (map r_name h) -> readable c f ->
  (dueb c h f = true /\ (c_skip_history c = true \/ ~ up_to_date c h f))
  \/ (dueb c h f = false /\ c_skip_history c = false /\ up_to_date c h f).
Proof.
  intros Hg Hh Hr. unfold dueb. destruct (c_skip_history c); [left; auto|]. cbn [orb].
  destruct (decide_entry c h f Hg Hh Hr) as [[Hu ->]|[Hu ->]]; [right; auto|left; auto].
Qed.

Lemma pending_dueb c h files p : good_hash c -> NoDup (map r_name h) -> Forall (readable c) files ->
  pending c h files p <-> p = filter (dueb c h) files.
Proof.
  intros Hg Hh Hr. assert (Hf : pending c h files (filter (dueb c h) files)).
  { rewrite Forall_forall in Hr. apply pending_filter; intros f Hf; destruct (dueb_spec c h f Hg Hh (Hr f Hf)) as [[E H]|(E & H1 & H2)]; rewrite E.
    - tauto.
    - split; [discriminate|]. intros [H|H]; [congruence|contradiction].
    - discriminate.
    - auto. }
  split.
  - intros H. eapply pending_unique; eassumption.
  - intros ->. exact Hf.
Qed.

(** ** Runs that may be interrupted *)
(** Runs of one command, each of which may stop anywhere: the process dies, or an
    operation fails and the run ends.  The process does not go on after a commit whose
    success it could not see, and history queries deliver all rows. *)
Inductive interrupted (c : config) (walk args : list bytes) : store -> store -> Prop :=
| interrupted_none s : interrupted c walk args s s
| interrupted_more s rs t o p s' : migrate c walk args (hist s) rs = (t, o) -> full_read t ->
    prefix p t -> ~ went_on p ->
    interrupted c walk args (after s p) s' -> interrupted c walk args s s'.

Section Crash.
  Variables (c : config) (walk args files : list bytes) (s : store) (pend : list bytes).
  Hypothesis Hcl : clean c walk args files.
  Hypothesis Hsk : c_skip_history c = false.
  Hypothesis Hh : NoDup (map r_name (hist s)).
  Hypothesis Hp : pending c (hist s) files pend.
  Hypothesis Htx : Forall (in_transaction (c_dialect c)) pend.

  Let app_of := fun f => Applied f (contents_of c f).
  Let sum (f : bytes) : bytes := m_checksum (due c (hist s) f).
  Definition done_row (f : bytes) : row :=
    {| r_name := f; r_checksum := Some (sum f); r_started := true; r_success := true |}.

  Definition partway (x : store) : Prop :=
    NoDup (map r_name (hist x)) /\
    exists done rest, pend = done ++ rest
      /\ data x = data s ++ map app_of done
      /\ (forall f, In f done -> lookup f (hist x) = Some (done_row f))
      /\ (forall f, In f rest -> lookup f (hist x) = lookup f (hist s)
            \/ exists st, lookup f (hist x) = Some {| r_name := f; r_checksum := Some (sum f); r_started := st; r_success := false |})
      /\ (forall f, ~ In f pend -> lookup f (hist x) = lookup f (hist s)).

  Lemma partway_start : partway s.
  Proof.
    split; [exact Hh|]. exists [], pend. split; [reflexivity|]. split; [rewrite app_nil_r; reflexivity|].
    split; [intros f []|]. split; [left; reflexivity|reflexivity].
  Qed.

  Let Hg : good_hash c := cl_hash _ _ _ _ Hcl.
  Let Hr : Forall (readable c) files := cl_read _ _ _ _ Hcl.

  Lemma pend_nodup : NoDup pend.
  Proof. eapply pending_NoDup; [exact Hp|apply (cl_nodup _ _ _ _ Hcl)]. Qed.

  Lemma same_entry_decide h h' f : lookup f h = lookup f h' -> entry h f = entry h' f.
  Proof. intros E. unfold entry. rewrite E. reflexivity. Qed.

  (** A finished script is up to date. *)
  Lemma done_up_to_date x f : NoDup (map r_name (hist x)) -> In f files ->
    lookup f (hist x) = Some (done_row f) -> up_to_date c (hist x) f.
  Proof.
    intros Hn Hf Hl. apply up_to_date_lookup; [exact Hn|]. exists (done_row f). split; [exact Hl|]. split; [reflexivity|].
    intros Hrep. rewrite Forall_forall in Hr. specialize (Hr f Hf). unfold readable in Hr.
    destruct (c_dir c f) as [y|] eqn:E; [|congruence]. exists y. split; [reflexivity|]. cbn [done_row r_checksum].
    unfold sum, due. apply repeatable_iff in Hrep. rewrite Hrep. cbn [with_checksum m_checksum].
    unfold checksum_of, contents_of. rewrite E, lf_only_replace. reflexivity.
  Qed.
  Lemma failed_not_up_to_date x f r : NoDup (map r_name (hist x)) -> lookup f (hist x) = Some r ->
    r_success r = false -> ~ up_to_date c (hist x) f.
  Proof.
    intros Hn Hl Hs Hu. apply up_to_date_lookup in Hu as (r' & E & Hs' & _); [|exact Hn]. congruence.
  Qed.
  Lemma same_up_to_date x f : NoDup (map r_name (hist x)) -> lookup f (hist x) = lookup f (hist s) ->
    up_to_date c (hist x) f <-> up_to_date c (hist s) f.
  Proof. intros Hn E. rewrite (up_to_date_lookup c (hist x) f Hn), (up_to_date_lookup c (hist s) f Hh), E. reflexivity. Qed.

  Lemma filter_rest (b : bytes -> bool) (done rest : list bytes) : 
    (forall f, In f done -> b f = false) -> (forall f, In f rest -> b f = true) ->
    filter b (done ++ rest) = rest.
  Proof.
    intros H1 H2. rewrite filter_app.
    assert (E1 : filter b done = []).
    { induction done as [|f l IH]; [reflexivity|]. cbn. rewrite (H1 f (or_introl eq_refl)). apply IH. intros g Hx. apply H1. right. exact Hx. }
    assert (E2 : filter b rest = rest).
    { clear E1. induction rest as [|f l IH]; [reflexivity|]. cbn. rewrite (H2 f (or_introl eq_refl)). f_equal. apply IH. intros g Hx. apply H2. right. exact Hx. }
    rewrite E1, E2. reflexivity.
  Qed.

  Lemma partway_pending x done rest : NoDup (map r_name (hist x)) -> pend = done ++ rest ->
    (forall f, In f done -> lookup f (hist x) = Some (done_row f)) ->
    (forall f, In f rest -> lookup f (hist x) = lookup f (hist s)
          \/ exists st, lookup f (hist x) = Some {| r_name := f; r_checksum := Some (sum f); r_started := st; r_success := false |}) ->
    (forall f, ~ In f pend -> lookup f (hist x) = lookup f (hist s)) ->
    pending c (hist x) files rest.
  Proof.
    intros Hn E H1 H2 H3. apply (pending_dueb c (hist x) files rest Hg Hn Hr).
    pose proof (proj1 (pending_dueb c (hist s) files pend Hg Hh Hr) Hp) as Ep.
    assert (Hr' : forall f, In f files -> readable c f) by (rewrite Forall_forall in Hr; exact Hr).
    assert (Hd : forall f, In f done -> dueb c (hist x) f = false).
    { intros f Hf. assert (Hi : In f files).
      { assert (Hi : In f pend) by (rewrite E; apply in_or_app; left; exact Hf).
        rewrite Ep in Hi. apply filter_In in Hi. tauto. }
      destruct (dueb_spec c (hist x) f Hg Hn (Hr' f Hi)) as [[Hx [Hy|Hy]]|(Hx & _)]; [congruence| |exact Hx].
      exfalso. apply Hy. eapply done_up_to_date; [exact Hn|exact Hi|apply H1; exact Hf]. }
    assert (Hrs : forall f, In f rest -> dueb c (hist x) f = true).
    { intros f Hf. assert (Hpe : In f pend) by (rewrite E; apply in_or_app; right; exact Hf).
      assert (Hi : In f files) by (rewrite Ep in Hpe; apply filter_In in Hpe; tauto).
      destruct (dueb_spec c (hist x) f Hg Hn (Hr' f Hi)) as [[Hx _]|(Hx & _ & Hu)]; [exact Hx|exfalso].
      destruct (H2 f Hf) as [Hl|(st & Hl)].
      - apply (same_up_to_date x f Hn Hl) in Hu. apply (pending_In _ _ _ _ Hp) in Hpe as [_ [Hc|Hc]]; [congruence|contradiction].
      - eapply failed_not_up_to_date; [exact Hn|exact Hl|reflexivity|exact Hu]. }
    assert (Hsub : filter (dueb c (hist x)) files = filter (dueb c (hist x)) pend).
    { rewrite Ep. clear - H3 Hr' Hh Hn Hp Ep Hg Hsk. 
      assert (Hout : forall f, In f files -> dueb c (hist s) f = false -> dueb c (hist x) f = false).
      { intros f Hf Hx. assert (Hnp : ~ In f pend) by (rewrite Ep; intros Hi; apply filter_In in Hi as [_ Hi]; congruence).
        unfold dueb in Hx |- *. rewrite (same_entry_decide _ _ _ (H3 f Hnp)). exact Hx. }
      clear - Hout. induction files as [|f fs IH]; [reflexivity|]. cbn [filter].
      assert (IH' : filter (dueb c (hist x)) fs = filter (dueb c (hist x)) (filter (dueb c (hist s)) fs))
        by (apply IH; intros g Hf; apply Hout; right; exact Hf).
      destruct (dueb c (hist s) f) eqn:Es.
      - cbn [filter]. destruct (dueb c (hist x) f); rewrite IH'; reflexivity.
      - rewrite (Hout f (or_introl eq_refl) Es). exact IH'. }
    rewrite Hsub, E. symmetry. apply filter_rest; assumption.
  Qed.

  (** The scripts still to do have the same checksums as at the start. *)
  Lemma same_sum x f : lookup f (hist x) = lookup f (hist s)
      \/ (exists st, lookup f (hist x) = Some {| r_name := f; r_checksum := Some (sum f); r_started := st; r_success := false |}) ->
    m_checksum (due c (hist x) f) = sum f.
  Proof.
    intros [E|(st & E)]; unfold sum.
    - unfold due. rewrite (same_entry_decide _ _ _ E). reflexivity.
    - unfold sum in E. unfold due in E |- *. destruct (repeatable f); [reflexivity|]. unfold entry at 1. rewrite E. reflexivity.
  Qed.

  Lemma partway_step x rs t o p : partway x -> migrate c walk args (hist x) rs = (t, o) -> full_read t ->
    prefix p t -> ~ went_on p -> partway (after x p).
  Proof.
    intros (Hn & done & rest & E & Hd & H1 & H2 & H3) Hm Hfull Hpre Hw.
    split; [apply after_keyed; exact Hn|].
    pose proof (partway_pending x done rest Hn E H1 H2 H3) as Hp'.
    pose proof (cr_point c walk args files x Hcl Hn rest Hp' rs t p o Hm Hfull Hpre) as Hpt.
    assert (Htx' : Forall (in_transaction (c_dialect c)) rest) by (rewrite E in Htx; apply Forall_app in Htx; tauto).
    set (ms := map (due c (seen c (hist x))) rest) in *. set (gs := batches (c_dialect c) ms []) in *.
    assert (Hseen : seen c (hist x) = hist x) by (unfold seen; rewrite Hsk; reflexivity).
    assert (Hnames : map m_name ms = rest) by apply names_due.
    assert (Hconc : concat gs = ms) by apply (batches_start (c_dialect c) ms).
    assert (Hgt : forall g, In g gs -> is_tx (c_dialect c) g = true).
    { intros g Hgi. pose proof (cr_valid c x rest) as Hv. rewrite Forall_forall in Hv.
      destruct (valid_is_tx _ _ (Hv g Hgi)) as [[Hx _]|(_ & m & -> & Hx)]; [exact Hx|exfalso].
      rewrite Forall_forall in Htx'. apply Hx, Htx'. rewrite <- Hnames. apply in_map. rewrite <- Hconc. apply in_concat.
      exists [m]. split; [exact Hgi|left; reflexivity]. }
    destruct Hpt as [k sk es Hruns Hes Hsk0 Hx].
    assert (Hees : es = map (applied c) (concat (firstn k gs))).
    { apply Hes. right. rewrite Forall_forall. exact Hgt. }
    assert (Hms : forall m, In m ms -> success_row m = done_row (m_name m) /\ In (m_name m) rest).
    { intros m Hi. split; [|rewrite <- Hnames; apply in_map; exact Hi]. unfold ms in Hi.
      apply in_map_iff in Hi as (f & <- & Hf). rewrite due_name. unfold success_row, done_row. rewrite due_name.
      rewrite Hseen, (same_sum x f (H2 f Hf)). reflexivity. }
    assert (Hin1 : forall m, In m (concat (firstn k gs)) -> In m ms).
    { intros m Hi. rewrite <- Hconc, (concat_firstn_skipn k gs). apply in_or_app. left. exact Hi. }
    exists (done ++ map m_name (concat (firstn k gs))), (map m_name (concat (skipn k gs))).
    assert (Esp : map m_name (concat (firstn k gs)) ++ map m_name (concat (skipn k gs)) = rest) by apply (cr_split c x rest k).
    assert (Hnd : NoDup (map m_name (concat (firstn k gs)))).
    { pose proof pend_nodup as Hnd. rewrite E, <- Esp in Hnd. apply NoDup_app_remove_l in Hnd. apply NoDup_app_remove_r in Hnd. exact Hnd. }
    assert (Hdisj : forall f, In f (done ++ map m_name (concat (firstn k gs))) -> In f (map m_name (concat (skipn k gs))) -> False).
    { intros f Ha Hb. pose proof pend_nodup as Hnd'. rewrite E, <- Esp, app_assoc in Hnd'. exact (NoDup_app_disjoint _ _ f Hnd' Ha Hb). }
    (* the store between the groups *)
    assert (Hlk : forall f, lookup f (hist sk) =
              if in_dec (list_eq_dec Ascii.ascii_dec) f (map m_name (concat (firstn k gs))) then Some (done_row f) else lookup f (hist x)).
    { intros f. rewrite Hsk0. cbn [hist]. destruct (in_dec _ _ _) as [Hi|Hi].
      - apply in_map_iff in Hi as (m & <- & Hmi). rewrite lookup_recorded_in; [|exact Hsk|exact Hnd|exact Hmi].
        f_equal. apply Hms, Hin1. exact Hmi.
      - apply lookup_recorded_other. exact Hi. }
    assert (Hrowsk : forall f, (lookup f (hist (after x p)) = lookup f (hist sk)
              \/ (In f (map m_name (concat (skipn k gs))) /\
                  exists st, lookup f (hist (after x p)) = Some {| r_name := f; r_checksum := Some (sum f); r_started := st; r_success := false |}))).
    { intros f. destruct Hx as [Hx|[(g & rows & Hgk & _ & (q' & n & Hkey & Hrows) & Hx)|[(k' & g & rows & _ & _ & _ & _ & Hwent & _)|(m & tail & Hgk & Hnt & _)]]].
      - left. rewrite Hx. reflexivity.
      - rewrite Hx. cbn [with_rows hist].
        destruct (lookup_upsert_cases f rows (hist sk)) as [(r & Hri & Hrn & Hl)|[_ Hl]]; [|left; exact Hl].
        right. rewrite Hl. rewrite Hrows in Hri. apply in_map_iff in Hri as (m' & <- & Hmi). apply firstn_In in Hmi. cbn [failure_row r_name] in Hrn.
        assert (Hkm : In (key m') (map key g)) by (rewrite <- Hkey; apply in_map; exact Hmi).
        apply in_map_iff in Hkm as (m & Hkm & Hmg). injection Hkm as Ek1 Ek2.
        assert (Hms' : In m ms).
        { rewrite <- Hconc. apply in_concat. exists g. split; [eapply nth_error_In; exact Hgk|exact Hmg]. }
        assert (Hmsk : In f (map m_name (concat (skipn k gs)))).
        { subst f. rewrite <- Ek1. eapply (cr_next_in c x rest); [exact Hgk|]. apply in_map. exact Hmg. }
        split; [exact Hmsk|]. exists (m_started m'). f_equal. unfold failure_row. subst f. f_equal.
        rewrite <- Ek2. f_equal. destruct (Hms m Hms') as [Hsr _]. apply (f_equal r_checksum) in Hsr. cbn in Hsr. injection Hsr as ->.
        rewrite Ek1. reflexivity.
      - contradiction.
      - exfalso. rewrite (Hgt [m]) in Hnt; [discriminate|eapply nth_error_In; exact Hgk]. }
    assert (Hdata : data (after x p) = data sk).
    { destruct Hx as [Hx|[(g & rows & _ & _ & _ & Hx)|[(k' & g & rows & _ & _ & _ & _ & Hwent & _)|(m & tail & Hgk & Hnt & _)]]].
      - rewrite Hx. reflexivity.
      - rewrite Hx. reflexivity.
      - contradiction.
      - exfalso. rewrite (Hgt [m]) in Hnt; [discriminate|eapply nth_error_In; exact Hgk]. }
    split; [rewrite <- app_assoc, Esp; exact E|].
    split; [|split; [|split]].
    - rewrite Hdata, Hsk0. cbn [data]. rewrite Hd, Hees, map_app, <- app_assoc. do 2 f_equal. rewrite map_map. reflexivity.
    - intros f Hf. destruct (Hrowsk f) as [Hl|[Hl _]]; [|exfalso; exact (Hdisj f Hf Hl)].
      rewrite Hl, Hlk. destruct (in_dec _ _ _) as [Hi|Hi]; [reflexivity|].
      apply in_app_or in Hf as [Hf|Hf]; [apply H1; exact Hf|contradiction].
    - intros f Hf. destruct (Hrowsk f) as [Hl|[_ Hl]]; [|right; exact Hl].
      rewrite Hl, Hlk. destruct (in_dec _ _ _) as [Hi|Hi].
      + exfalso. apply (Hdisj f); [apply in_or_app; right; exact Hi|exact Hf].
      + apply H2. rewrite <- Esp. apply in_or_app. right. exact Hf.
    - intros f Hf. destruct (Hrowsk f) as [Hl|[Hl _]].
      + rewrite Hl, Hlk. destruct (in_dec _ _ _) as [Hi|Hi]; [|apply H3; exact Hf].
        exfalso. apply Hf. rewrite E, <- Esp. apply in_or_app. right. apply in_or_app. left. exact Hi.
      + exfalso. apply Hf. rewrite E, <- Esp. apply in_or_app. right. apply in_or_app. right. exact Hl.
  Qed.

  Lemma partway_interrupted x x' : interrupted c walk args x x' -> partway x -> partway x'.
  Proof.
    induction 1 as [x|x rs t o p x' Hm Hfull Hpre Hw Hi IH]; intros H; [exact H|].
    apply IH. eapply partway_step; eassumption.
  Qed.

  (** A run that completes what is left. *)
  Lemma partway_finish x rs t : partway x -> migrate c walk args (hist x) rs = (t, Done) -> full_read t ->
    data (after x t) = data s ++ map app_of pend
    /\ forall f, lookup f (hist (after x t)) = if in_dec (list_eq_dec Ascii.ascii_dec) f pend then Some (done_row f) else lookup f (hist s).
  Proof.
    intros (Hn & done & rest & E & Hd & H1 & H2 & H3) Hm Hfull.
    pose proof (partway_pending x done rest Hn E H1 H2 H3) as Hp'.
    destruct (run_complete c walk args files x Hcl Hn rest Hp' rs t Hm Hfull) as (new & Hnew & _ & Hex & Hhist).
    assert (Htx' : Forall (in_transaction (c_dialect c)) rest) by (rewrite E in Htx; apply Forall_app in Htx; tauto).
    rewrite (Hex (or_intror Htx')) in Hnew.
    split; [rewrite Hnew, Hd, E, map_app, <- app_assoc; reflexivity|].
    intros f. rewrite Hhist.
    assert (Hseen : seen c (hist x) = hist x) by (unfold seen; rewrite Hsk; reflexivity).
    assert (Hnd : NoDup (done ++ rest)) by (rewrite <- E; exact pend_nodup).
    destruct (in_dec (list_eq_dec Ascii.ascii_dec) f rest) as [Hi|Hi].
    - destruct (in_dec (list_eq_dec Ascii.ascii_dec) f pend) as [_|Hx]; [|exfalso; apply Hx; rewrite E; apply in_or_app; right; exact Hi].
      assert (Hmi : In (due c (seen c (hist x)) f) (map (due c (seen c (hist x))) rest)) by (apply in_map; exact Hi).
      replace f with (m_name (due c (seen c (hist x)) f)) at 1 by apply due_name.
      rewrite lookup_recorded_in; [|exact Hsk|rewrite names_due; apply NoDup_app_remove_l in Hnd; exact Hnd|exact Hmi].
      f_equal. unfold success_row, done_row. rewrite due_name, Hseen, (same_sum x f (H2 f Hi)). reflexivity.
    - rewrite lookup_recorded_other by (rewrite names_due; exact Hi).
      destruct (in_dec (list_eq_dec Ascii.ascii_dec) f pend) as [Hx|Hx]; [|apply H3; exact Hx].
      apply H1. rewrite E in Hx. apply in_app_or in Hx as [Hx|Hx]; [exact Hx|contradiction].
  Qed.

  (** C29 *)
  Lemma crash_recovery s' rs t rs0 t0 : interrupted c walk args s s' ->
    migrate c walk args (hist s') rs = (t, Done) -> full_read t ->
    migrate c walk args (hist s) rs0 = (t0, Done) -> full_read t0 ->
    data (after s' t) = data (after s t0)
    /\ data (after s' t) = data s ++ map (fun f => Applied f (contents_of c f)) pend
    /\ forall r, In r (hist (after s' t)) <-> In r (hist (after s t0)).
  Proof.
    intros Hi Hm Hf Hm0 Hf0. pose proof (partway_interrupted _ _ Hi partway_start) as Hpw.
    destruct (partway_finish s' rs t Hpw Hm Hf) as [A1 A2].
    destruct (partway_finish s rs0 t0 partway_start Hm0 Hf0) as [B1 B2].
    split; [congruence|]. split; [exact A1|]. intros r.
    assert (N1 : NoDup (map r_name (hist (after s' t)))) by (apply after_keyed; apply Hpw).
    assert (N2 : NoDup (map r_name (hist (after s t0)))) by (apply after_keyed; exact Hh).
    split; intros Hin.
    - apply NoDup_lookup_In in Hin; [|exact N1]. eapply lookup_In. rewrite B2, <- A2. exact Hin.
    - apply NoDup_lookup_In in Hin; [|exact N2]. eapply lookup_In. rewrite A2, <- B2. exact Hin.
  Qed.

  (** Whatever happens, every script is applied at most once. *)
  Lemma applied_once s' f : interrupted c walk args s s' ->
    exists new, data s' = data s ++ new /\ effects_of f new <= 1 /\ (effects_of f new = 1 -> up_to_date c (hist s') f).
  Proof.
    intros Hi. destruct (partway_interrupted _ _ Hi partway_start) as (Hn & done & rest & E & Hd & H1 & _).
    exists (map app_of done). split; [exact Hd|].
    assert (Hnd : NoDup done) by (pose proof pend_nodup as H; rewrite E in H; apply NoDup_app_remove_r in H; exact H).
    assert (Hc : effects_of f (map app_of done) = if in_dec (list_eq_dec Ascii.ascii_dec) f done then 1 else 0).
    { clear - Hnd. unfold effects_of. induction done as [|g l IH]; [reflexivity|]. inversion Hnd as [|? ? Hg Hl]; subst.
      specialize (IH Hl). cbn [map filter]. unfold app_of at 1. cbn [is_effect_of].
      destruct (beqb_spec g f) as [->|Hne].
      - cbn [List.length]. rewrite IH. destruct (in_dec (list_eq_dec Ascii.ascii_dec) f l); [contradiction|].
        destruct (in_dec (list_eq_dec Ascii.ascii_dec) f (f :: l)) as [_|Hx]; [reflexivity|exfalso; apply Hx; left; reflexivity].
      - rewrite IH. destruct (in_dec (list_eq_dec Ascii.ascii_dec) f l) as [Hi|Hi], (in_dec (list_eq_dec Ascii.ascii_dec) f (g :: l)) as [Hj|Hj]; try reflexivity.
        + exfalso. apply Hj. right. exact Hi.
        + exfalso. destruct Hj as [Hj|Hj]; [congruence|contradiction]. }
    rewrite Hc. destruct (in_dec (list_eq_dec Ascii.ascii_dec) f done) as [Hi'|Hi']; [|split; [lia|discriminate]].
    split; [lia|]. intros _. eapply done_up_to_date; [exact Hn| |apply H1; exact Hi'].
    assert (Hx : In f pend) by (rewrite E; apply in_or_app; left; exact Hi').
    apply (pending_In _ _ _ _ Hp) in Hx. tauto.
  Qed.
End Crash.

(** ** C18 *)
Lemma executed_iff_changed c walk args files s rs t o f :
  clean c walk args files -> c_skip_history c = false -> NoDup (map r_name (hist s)) ->
  migrate c walk args (hist s) rs = (t, o) -> full_read t -> In f files ->
  ((exists x r, In (OpExec f x, r) t) -> ~ up_to_date c (hist s) f)
  /\ (o = Done -> ~ up_to_date c (hist s) f -> exists x r, c_dir c f = Some x /\ In (OpExec f x, r) t).
Proof.
  intros Hcl Hsk Hh Hm Hfull Hf. split.
  - intros (x & r & Hi) Hu. destruct (no_exec_up_to_date _ _ _ _ _ _ _ _ _ Hcl Hsk Hh Hm Hfull Hu) as [Hno _]. apply (Hno x r Hi).
  - intros -> Hu.
    destruct (pending_exists c (hist s) files (cl_read _ _ _ _ Hcl) (cl_hash _ _ _ _ Hcl) Hh) as (p & Hp).
    assert (Hin : In f p) by (apply (pending_In _ _ _ _ Hp); auto).
    pose proof (migrate_clean _ _ _ _ _ _ _ _ _ Hcl Hh Hp Hm Hfull) as Hrun.
    inversion Hrun as [|t0 t1 o' Hn Hg]; subst.
    assert (Hall : forall gs t o, groups_trace c Done gs t o -> o = Done -> Forall (valid_group (c_dialect c)) gs -> forall m, In m (concat gs) ->
               exists x r, c_dir c (m_name m) = Some x /\ In (OpExec (m_name m) x, r) t).
    { clear. induction 1 as [|g gs t t' o Hg Hgs IH|g gs t o Hg Hne]; intros Ho Hv m Hm; [destruct Hm| |congruence].
      inversion Hv; subst. cbn [concat] in Hm. apply in_app_or in Hm as [Hm|Hm].
      - assert (Hl : forall tx done q t res, loop_trace c tx done q t res -> snd (fst res) = None -> forall m, In m q -> exists x r, c_dir c (m_name m) = Some x /\ In (OpExec (m_name m) x, r) t).
        { clear. induction 1; cbn [fst snd]; intros E m0 Hm0; try discriminate; try (destruct Hm0; fail).
          - destruct Hm0 as [<-|Hm0]; [eexists _, _; split; [eassumption|left; reflexivity]|].
            destruct (IHloop_trace E m0 Hm0) as (x' & r0 & Hd & Hi). exists x', r0. split; [exact Hd|right; exact Hi].
          - destruct Hm0 as [<-|Hm0]; [eexists _, _; split; [eassumption|left; reflexivity]|].
            destruct (IHloop_trace E m0 Hm0) as (x' & r0 & Hd & Hi). exists x', r0. split; [exact Hd|right; right; exact Hi]. }
        assert (Hre : forall re k q t o, retry_trace c re k q t o -> o = Done -> forall m, In m q -> exists x r, c_dir c (m_name m) = Some x /\ In (OpExec (m_name m) x, r) t).
        { clear - Hl. assert (Hrun : forall q t n q', run_trace c q t (n, None, q') -> forall m, In m q -> exists x r, c_dir c (m_name m) = Some x /\ In (OpExec (m_name m) x, r) t).
          { intros q t n q' H m Hm. inversion H as [|r t' res' Ht Hk Hlt|t' res' Ht Hlt]; subst.
            - destruct (Hl _ _ _ _ _ Hlt eq_refl m Hm) as (x & r0 & Hd & Hi). exists x, r0. split; [exact Hd|right; exact Hi].
            - exact (Hl _ _ _ _ _ Hlt eq_refl m Hm). }
          induction 1 as [k q t n q' Hr|k q t n q' Hr Hre Hd Hk|k q t n q' Hr Hre Hd Hk Hn|k q t n q' r0 Hr Hre Hd Hk Hn Hng
                  |k q t n q' r0 r' t' o Hr Hre Hd Hk Hn Hng Ht IH|k q t n l0 q' u Hr Hl0 Hund Hq'|k q t n l0 q' u r0 Hr Hl0 Hund Hn Hsk];
            intros Ho m Hm; try discriminate.
          - eapply Hrun; eassumption.
          - destruct (n <? 0)%Z; discriminate.
          - pose proof (run_trace_shape _ _ _ _ _ _ Hr) as (Hkey & _). apply key_names in Hkey.
            assert (Hi : In (m_name m) (map m_name q')) by (rewrite Hkey; apply in_map; exact Hm).
            apply in_map_iff in Hi as (m' & En & Hm'). destruct (IH Ho m' Hm') as (x & r1 & Hd' & Hi). rewrite En in *.
            exists x, r1. split; [exact Hd'|]. apply in_or_app. right. right. right. exact Hi. }
        assert (Hb : exists x r, c_dir c (m_name m) = Some x /\ In (OpExec (m_name m) x, r) t).
        { inversion Hg; subst; eapply Hre; try eassumption; reflexivity. }
        destruct Hb as (x & r & Hd & Hi). exists x, r. split; [exact Hd|apply in_or_app; left; exact Hi].
      - destruct (IH eq_refl H2 m Hm) as (x & r & Hd & Hi). exists x, r. split; [exact Hd|apply in_or_app; right; exact Hi]. }
    destruct (batches_start (c_dialect c) (map (due c (seen c (hist s))) p)) as (V1 & V2 & _).
    destruct (Hall _ _ _ Hg eq_refl V1 (due c (seen c (hist s)) f)) as (x & r & Hd & Hi).
    { rewrite V2. apply in_map. exact Hin. }
    rewrite due_name in *. exists x, r. split; [exact Hd|]. apply in_or_app. right. exact Hi.
Qed.

(** ** C53 *)
Lemma effects_app f a b : effects_of f (a ++ b) = effects_of f a + effects_of f b.
Proof. unfold effects_of. rewrite filter_app, app_length. reflexivity. Qed.
Lemma in_order_once c fs es : in_order c fs es -> NoDup fs -> forall f,
  in_transaction (c_dialect c) f -> effects_of f es <= (if in_dec (list_eq_dec Ascii.ascii_dec) f fs then 1 else 0).
Proof.
  induction 1 as [|g x fs tries es Hd Ht Hne Ho IH]; intros Hn f Hf; [cbn; lia|].
  inversion Hn as [|? ? Hg Hn']; subst. specialize (IH Hn' f Hf).
  rewrite effects_app. change (Applied g x :: es) with ([Applied g x] ++ es). rewrite effects_app.
  assert (Htr : g <> f -> effects_of f tries = 0).
  { intros Hne'. clear - Ht Hne'. induction Ht as [|e l He Hl IH]; [reflexivity|]. change (e :: l) with ([e] ++ l). rewrite effects_app, IH.
    unfold effects_of. cbn. destruct He as [-> | ->]; cbn; (destruct (beqb_spec g f); [congruence|reflexivity]). }
  unfold effects_of at 2. cbn [filter is_effect_of].
  destruct (beqb_spec g f) as [->|Hne'].
  - destruct tries as [|e tries]; [|exfalso; apply Hne; [discriminate|exact Hf]].
    destruct (in_dec (list_eq_dec Ascii.ascii_dec) f fs); [contradiction|].
    destruct (in_dec (list_eq_dec Ascii.ascii_dec) f (f :: fs)) as [_|Hx]; [cbn in *; lia|exfalso; apply Hx; left; reflexivity].
  - rewrite (Htr Hne'). destruct (in_dec (list_eq_dec Ascii.ascii_dec) f fs) as [Hi|Hi], (in_dec (list_eq_dec Ascii.ascii_dec) f (g :: fs)) as [Hj|Hj]; cbn in *; try lia.
    exfalso. apply Hj. right. exact Hi.
Qed.
