(** Progress, grouping, retries, undo (C16, C18-C23). *)
From Verif Require Import GoStr GoStrFacts ModelSq SpecSql SqFacts ModelHistory HistoryFacts.
From Verif Require Import ModelMigrate SpecDb SpecMigrate MigrateFacts MigrateTrace MigrateBatch MigrateGroups MigratePlan MigrateSafety.
From Coq Require Import ZifyBool ZifyNat.

(** ** Effects of completed scripts *)
Lemma runs_In c ms es : runs_of c ms es -> forall m, In m ms -> In (applied c m) es.
Proof.
  induction 1 as [|m0 ms tries es Hf Ht Hr IH]; intros m []; subst.
  - apply in_or_app. right. left. reflexivity.
  - apply in_or_app. right. right. apply IH. assumption.
Qed.
Lemma runs_names c ms es : runs_of c ms es -> forall e, In e es -> exists m, In m ms /\ effect_of (m_name m) e.
Proof.
  induction 1 as [|m0 ms tries es Hf Ht Hr IH]; intros e He; [destruct He|].
  apply in_app_or in He as [He|[<-|He]].
  - exists m0. split; [left; reflexivity|]. rewrite Forall_forall in Hf.
    destruct (Hf e He) as [-> | ->]; reflexivity.
  - exists m0. split; [left; reflexivity|reflexivity].
  - destruct (IH e He) as (m & Hm & Hx). exists m. split; [right; exact Hm|exact Hx].
Qed.

Lemma runs_in_order c ms es : runs_of c ms es -> Forall (fun m => readable c (m_name m)) ms ->
  in_order c (map m_name ms) es.
Proof.
  induction 1 as [|m ms tries es Hf Ht Hr IH]; intros Hread; [constructor|].
  inversion Hread as [|? ? Hm Hms]; subst. cbn [map]. unfold readable in Hm.
  destruct (c_dir c (m_name m)) as [x|] eqn:E; [|congruence].
  unfold applied, contents_of in *. rewrite E in *.
  apply in_order_cons; [exact E|exact Hf| |apply IH; exact Hms].
  intros Hne Hin. apply is_tx_single in Hin. rewrite (Ht Hne) in Hin. discriminate.
Qed.

Lemma names_due c h p : map m_name (map (due c h) p) = p.
Proof. rewrite map_map. rewrite (map_ext _ (fun f => f)) by (intros; apply due_name). apply map_id. Qed.

(** ** Uniqueness of the grouping *)
Lemma grouping_concat d fs gs : grouping d fs gs -> concat gs = fs.
Proof.
  induction 1 as [|f fs gs Hf Hg IH|f fs gs Hf Hg IH Hn|f f' fs g gs Hf Hf' Hg IH]; cbn [concat app] in *; congruence.
Qed.
Lemma grouping_nonempty d fs gs : grouping d fs gs -> Forall (fun g => g <> []) gs.
Proof.
  induction 1 as [|f fs gs Hf Hg IH|f fs gs Hf Hg IH Hn|f f' fs g gs Hf Hf' Hg IH]; constructor; try discriminate; try assumption.
  inversion IH; assumption.
Qed.
Lemma grouping_unique d fs gs : grouping d fs gs -> forall gs', grouping d fs gs' -> gs = gs'.
Proof.
  induction 1 as [|f fs gs Hf Hg IH|f fs gs Hf Hg IH Hn|f f' fs g gs Hf Hf' Hg IH]; intros gs' H'.
  - inversion H'. reflexivity.
  - inversion H'; subst; try contradiction. f_equal. apply IH. assumption.
  - inversion H'; subst; try contradiction. f_equal. apply IH. assumption.
  - inversion H'; subst; try contradiction.
    match goal with H : grouping d (f' :: fs) (?g1 :: ?gs1) |- _ => apply IH in H; injection H as <- <- end. reflexivity.
Qed.

(** ** The invariant of a clean run in terms of names *)
Lemma firstn_In {A} (x : A) k l : In x (firstn k l) -> In x l.
Proof. intros H. rewrite <- (firstn_skipn k l). apply in_or_app. left. exact H. Qed.

Lemma concat_firstn_skipn {A} k (l : list (list A)) : concat l = concat (firstn k l) ++ concat (skipn k l).
Proof. rewrite <- concat_app, firstn_skipn. reflexivity. Qed.

Lemma nth_error_skipn {A} k (l : list A) x : nth_error l k = Some x -> exists r, skipn k l = x :: r.
Proof.
  revert l; induction k as [|k IH]; intros [|y l] H; try discriminate.
  - injection H as ->. exists l. reflexivity.
  - cbn in *. apply IH. exact H.
Qed.

Lemma nth_error_firstn {A} j k (l : list A) : j < k -> nth_error (firstn k l) j = nth_error l j.
Proof.
  revert j l; induction k as [|k IH]; intros j l H; [lia|].
  destruct l as [|a l]; [destruct j; reflexivity|]. destruct j; [reflexivity|]. cbn. apply IH. lia.
Qed.
Lemma nth_error_skipn_sub {A} j k (l : list A) : k <= j -> nth_error (skipn k l) (j - k) = nth_error l j.
Proof.
  revert j k; induction l as [|a l IH]; intros j k H.
  - rewrite skipn_nil. destruct (j - k), j; reflexivity.
  - destruct k; [rewrite Nat.sub_0_r; reflexivity|]. destruct j; [lia|]. cbn. apply IH. lia.
Qed.

Lemma fail_rows_names q rows r : fail_rows q rows -> In r rows -> In (r_name r) (map m_name q) /\ r_success r = false.
Proof.
  intros (q' & n & Hk & ->) H. apply in_map_iff in H as (m & <- & Hm). split; [|reflexivity].
  rewrite <- (key_names _ _ Hk). cbn. apply in_map. eapply firstn_In. exact Hm.
Qed.

Lemma lookup_with_rows q rows f h : fail_rows q rows ->
  lookup f (upsert_all rows h) = lookup f h
  \/ (In f (map m_name q) /\ exists r, In r rows /\ lookup f (upsert_all rows h) = Some r /\ r_success r = false).
Proof.
  intros Hf. destruct (lookup_upsert_cases f rows h) as [(r & Hr & E & Hl)|[_ Hl]]; [|left; exact Hl].
  right. destruct (fail_rows_names _ _ _ Hf Hr) as [Hn Hs]. subst f. split; [exact Hn|]. exists r. auto.
Qed.

Lemma lookup_recorded_other c ms f h : ~ In f (map m_name ms) -> lookup f (recorded c ms h) = lookup f h.
Proof.
  intros H. unfold recorded. destruct (c_skip_history c); [reflexivity|].
  apply lookup_upsert_other. rewrite map_map. exact H.
Qed.
Lemma lookup_recorded_in c ms m h : c_skip_history c = false -> NoDup (map m_name ms) -> In m ms ->
  lookup (m_name m) (recorded c ms h) = Some (success_row m).
Proof.
  intros Hs Hn Hm. unfold recorded. rewrite Hs. apply (lookup_upsert_in (success_row m)).
  - rewrite map_map. exact Hn.
  - apply in_map. exact Hm.
Qed.

Lemma NoDup_app_disjoint {A} (a b : list A) x : NoDup (a ++ b) -> In x a -> In x b -> False.
Proof.
  induction a as [|y a IH]; intros H Ha Hb; [destruct Ha|]. inversion H as [|? ? Hy Hn]; subst.
  destruct Ha as [->|Ha]; [apply Hy, in_or_app; right; exact Hb|]. apply IH; assumption.
Qed.

(** ** C16 *)
Lemma batch_atomic c q rs t o s p :
  is_tx (c_dialect c) q = true -> run_with_retry c q rs = (t, o) -> prefix p t ->
  ((forall r, In (OpCommit, r) p -> took_effect r = false) ->
     data (after s p) = data s /\
     forall r, In r (hist (after s p)) -> r_success r = true -> In r (hist s))
  /\ ((exists r, In (OpCommit, r) p /\ took_effect r = true) ->
       data (after s p) = data s ++ map (fun m => Applied (m_name m) (contents_of c (m_name m))) q).
Proof.
  intros Htx H Hp. assert (Hq : q <> []) by (destruct q; [discriminate|discriminate]).
  apply run_with_retry_trace in H; [|exact Hq].
  inversion H as [? ? _ Hr| |]; subst; try congruence.
  destruct (retry_trace_tx _ _ _ _ _ Hr Htx s) as (_ & H2 & _).
  unfold after, survives. destruct (H2 p Hp) as [(U & rows & Hf & ->)|[(-> & p' & r & -> & Hr0)|((a & e & b & ->) & rows & Hf & ->)]].
  - split.
    + intros _. split; [reflexivity|]. intros r Hin Hs. cbn [with_rows hist] in Hin.
      apply In_upsert_all in Hin as [Hin|Hin]; [|exact Hin].
      apply (fail_rows_names _ _ _ Hf) in Hin as [_ Hin]. congruence.
    + intros (r & Hin & Ht). rewrite (U r Hin) in Ht. discriminate.
  - split.
    + intros U. rewrite (U r) in Hr0; [discriminate|]. apply in_or_app. right. left. reflexivity.
    + reflexivity.
  - split.
    + intros U. assert (Hx : took_effect (RErr false true) = false) by (apply U, in_or_app; right; left; reflexivity). discriminate.
    + reflexivity.
Qed.

Section CleanRun.
  Variables (c : config) (walk args files : list bytes) (s : store).
  Hypothesis Hcl : clean c walk args files.
  Hypothesis Hh : NoDup (map r_name (hist s)).
  Variable pend : list bytes.
  Hypothesis Hp : pending c (hist s) files pend.

  Let ms := map (due c (seen c (hist s))) pend.
  Let gs := batches (c_dialect c) ms [].

  Lemma cr_names : map m_name ms = pend. Proof. apply names_due. Qed.
  Lemma cr_concat : concat gs = ms. Proof. apply (batches_start (c_dialect c) ms). Qed.
  Lemma cr_grouping : grouping (c_dialect c) pend (map (map m_name) gs).
  Proof. pose proof (batches_start (c_dialect c) ms) as (_ & _ & H). rewrite cr_names in H. exact H. Qed.
  Lemma cr_valid : Forall (valid_group (c_dialect c)) gs. Proof. apply (batches_start (c_dialect c) ms). Qed.
  Lemma cr_nodup : NoDup pend. Proof. eapply pending_NoDup; [exact Hp|apply (cl_nodup _ _ _ _ Hcl)]. Qed.
  Lemma cr_readable : Forall (fun m => readable c (m_name m)) ms.
  Proof.
    apply Forall_forall. intros m Hm. pose proof (in_map m_name _ _ Hm) as Hi. rewrite cr_names in Hi.
    apply (pending_In _ _ _ _ Hp) in Hi as [Hi _]. pose proof (cl_read _ _ _ _ Hcl) as Hr.
    rewrite Forall_forall in Hr. apply Hr. exact Hi.
  Qed.
  Lemma cr_split k : map m_name (concat (firstn k gs)) ++ map m_name (concat (skipn k gs)) = pend.
  Proof. rewrite <- map_app, <- concat_firstn_skipn, cr_concat. apply cr_names. Qed.

  Lemma cr_next_disjoint k f : In f (map m_name (concat (firstn k gs))) -> In f (map m_name (concat (skipn k gs))) -> False.
  Proof.
    intros H1 H2. pose proof cr_nodup as Hn. rewrite <- (cr_split k) in Hn.
    exact (NoDup_app_disjoint _ _ f Hn H1 H2).
  Qed.

  Lemma cr_next_in k g f : nth_error gs k = Some g -> In f (map m_name g) -> In f (map m_name (concat (skipn k gs))).
  Proof.
    intros Hn Hf. destruct (nth_error_skipn _ _ _ Hn) as (r & ->). cbn [concat]. rewrite map_app.
    apply in_or_app. left. exact Hf.
  Qed.

  Section Point.
    Variables (rs : nat -> reply) (t p : list event) (o : outcome).
    Hypothesis Hm : migrate c walk args (hist s) rs = (t, o).
    Hypothesis Hfull : full_read t.
    Hypothesis Hpre : prefix p t.

    Lemma cr_clean : clean_run c (hist s) pend t o.
    Proof. eapply migrate_clean; eassumption. Qed.

    Lemma cr_point : at_point c s gs p (after s p).
    Proof. eapply clean_point; [apply cr_clean|exact Hpre]. Qed.

    (** Whole groups. *)
    Lemma run_atomic names : In names (map (map m_name) gs) -> Forall (in_transaction (c_dialect c)) names ->
      exists new, data (after s p) = data s ++ new /\
      ((forall f, In f names -> exists x, c_dir c f = Some x /\ In (Applied f x) new)
       \/ ((forall f e, In f names -> In e new -> ~ effect_of f e)
           /\ forall r, In r (hist (after s p)) -> In (r_name r) names -> r_success r = true -> In r (hist s))).
    Proof.
      intros Hg Htx. apply in_map_iff in Hg as (g & <- & Hg).
      apply In_nth_error in Hg as (j & Hj).
      destruct cr_point as [k sk es Hr _ Hsk Hx].
      assert (Hall : forall m, In m g -> In m ms).
      { intros m Hi. rewrite <- cr_concat. apply in_concat. exists g. split; [eapply nth_error_In; exact Hj|exact Hi]. }
      assert (Hdata : exists tail, data (after s p) = data s ++ es ++ tail /\
                forall e, In e tail -> exists m, nth_error gs k = Some [m] /\ is_tx (c_dialect c) [m] = false
                                       /\ about c (m_name m) e).
      { destruct Hx as [Hx|[(g0 & rows & _ & _ & _ & Hx)|[(k' & g0 & rows & _ & _ & _ & _ & _ & Hx)|(m & tail & Hn & Hnt & Hd & Ha & _)]]].
        - exists []. rewrite app_nil_r, Hx, Hsk. split; [reflexivity|intros e []].
        - exists []. rewrite app_nil_r, Hx, Hsk. split; [reflexivity|intros e []].
        - exists []. rewrite app_nil_r, Hx, Hsk. split; [reflexivity|intros e []].
        - exists tail. rewrite Hd, Hsk. cbn [data]. split; [symmetry; apply app_assoc|].
          intros e He. exists m. split; [exact Hn|]. split; [exact Hnt|]. rewrite Forall_forall in Ha. apply Ha. exact He. }
      destruct Hdata as (tail & Hd & Htail). exists (es ++ tail). split; [exact Hd|].
      destruct (Nat.lt_ge_cases j k) as [Hjk|Hjk].
      - left. intros f Hf. apply in_map_iff in Hf as (m & <- & Hmg).
        pose proof cr_readable as Hrd. rewrite Forall_forall in Hrd. specialize (Hrd m (Hall m Hmg)).
        unfold readable in Hrd. destruct (c_dir c (m_name m)) as [x|] eqn:E; [|congruence].
        exists x. split; [reflexivity|]. apply in_or_app. left.
        replace (Applied (m_name m) x) with (applied c m) by (unfold applied, contents_of; rewrite E; reflexivity).
        eapply runs_In; [exact Hr|]. apply in_concat. exists g. split; [|exact Hmg].
        apply nth_error_In with (n := j). rewrite <- Hj.
        apply nth_error_firstn. exact Hjk.
      - right.
        assert (Hlate : forall f, In f (map m_name g) -> In f (map m_name (concat (skipn k gs)))).
        { intros f Hf. apply in_map_iff in Hf as (m & <- & Hmg). apply in_map. apply in_concat. exists g. split; [|exact Hmg].
          assert (Hn : nth_error (skipn k gs) (j - k) = Some g).
          { rewrite <- Hj. apply nth_error_skipn_sub. exact Hjk. }
          eapply nth_error_In. exact Hn. }
        assert (Hnot : forall f m, In f (map m_name g) -> nth_error gs k = Some [m] -> is_tx (c_dialect c) [m] = false -> f <> m_name m).
        { intros f m Hf Hn Hnt ->. rewrite Forall_forall in Htx. apply Htx in Hf.
          apply is_tx_single in Hf. congruence. }
        split.
        + intros f e Hf He Hef. apply in_app_or in He as [He|He].
          * destruct (runs_names _ _ _ Hr e He) as (m & Hmin & Hm').
            assert (Hfm : f = m_name m) by (clear - Hef Hm'; destruct e; cbn in *; try contradiction; congruence). subst f.
            eapply cr_next_disjoint; [apply in_map; exact Hmin|apply Hlate; exact Hf].
          * destruct (Htail e He) as (m & Hn & Hnt & Ha). apply (Hnot f m Hf Hn Hnt). clear - Hef Ha.
            destruct e; cbn in *; try contradiction; destruct Ha as [Ha _]; congruence.
        + intros r Hin Hrn Hs.
          assert (Hl : lookup (r_name r) (hist (after s p)) = Some r)
            by (apply NoDup_lookup_In; [apply after_keyed; exact Hh|exact Hin]).
          assert (Hk0 : lookup (r_name r) (hist sk) = lookup (r_name r) (hist s)).
          { rewrite Hsk. cbn [hist]. apply lookup_recorded_other. intros Hi.
            eapply cr_next_disjoint; [exact Hi|apply Hlate; exact Hrn]. }
          apply lookup_In with (f := r_name r). rewrite <- Hk0, <- Hl.
          destruct Hx as [Hx|[(g0 & rows & _ & _ & Hf & Hx)|[(k' & g0 & rows & -> & Hn & _ & Hf & _ & Hx)|(m & tail' & Hn & Hnt & _ & _ & Ho)]]].
          * rewrite Hx. reflexivity.
          * rewrite Hx in *. cbn [with_rows hist] in *.
            destruct (lookup_with_rows _ _ (r_name r) (hist sk) Hf) as [E|(_ & r' & _ & E & Hs')]; [symmetry; exact E|].
            rewrite E in Hl. injection Hl as ->. congruence.
          * rewrite Hx in *. cbn [with_rows hist] in *.
            destruct (lookup_with_rows _ _ (r_name r) (hist sk) Hf) as [E|(_ & r' & _ & E & Hs')]; [symmetry; exact E|].
            rewrite E in Hl. injection Hl as ->. congruence.
          * symmetry. apply Ho. eapply Hnot; eassumption.
    Qed.

    (** Progress (C19). *)
    Lemma run_progress :
      exists k rest new tail,
        concat (firstn k (map (map m_name) gs)) ++ rest = pend
        /\ data (after s p) = data s ++ new ++ tail
        /\ in_order c (concat (firstn k (map (map m_name) gs))) new
        /\ (Forall no_lock p -> new = map (fun f => Applied f (contents_of c f)) (concat (firstn k (map (map m_name) gs))))
        /\ (tail = [] \/ exists f rest', rest = f :: rest' /\ ~ in_transaction (c_dialect c) f /\ Forall (about c f) tail).
    Proof.
      destruct cr_point as [k sk es Hr Hnl Hsk Hx].
      exists k, (map m_name (concat (skipn k gs))), es.
      assert (Hc : concat (firstn k (map (map m_name) gs)) = map m_name (concat (firstn k gs))).
      { rewrite firstn_map, concat_map. reflexivity. }
      rewrite Hc.
      assert (Htail : exists tail, data (after s p) = data s ++ es ++ tail
                /\ (tail = [] \/ exists f rest', map m_name (concat (skipn k gs)) = f :: rest' /\ ~ in_transaction (c_dialect c) f /\ Forall (about c f) tail)).
      { destruct Hx as [Hx|[(g0 & rows & _ & _ & _ & Hx)|[(k' & g0 & rows & _ & _ & _ & _ & _ & Hx)|(m & tail & Hn & Hnt & Hd & Ha & _)]]].
        - exists []. rewrite app_nil_r, Hx, Hsk. split; [reflexivity|left; reflexivity].
        - exists []. rewrite app_nil_r, Hx, Hsk. split; [reflexivity|left; reflexivity].
        - exists []. rewrite app_nil_r, Hx, Hsk. split; [reflexivity|left; reflexivity].
        - exists tail. rewrite Hd, Hsk. cbn [data]. split; [symmetry; apply app_assoc|]. right.
          destruct (nth_error_skipn _ _ _ Hn) as (r & ->). cbn [concat app map].
          exists (m_name m), (map m_name (concat r)). split; [reflexivity|]. split; [|exact Ha].
          intros Hin. apply is_tx_single in Hin. congruence. }
      destruct Htail as (tail & Hd & Ht). exists tail.
      split; [apply cr_split|]. split; [exact Hd|]. split.
      - apply runs_in_order; [exact Hr|]. pose proof cr_readable as Hrd. rewrite Forall_forall in *. intros m Hmin.
        apply Hrd. rewrite <- cr_concat, (concat_firstn_skipn k gs). apply in_or_app. left. exact Hmin.
      - split; [|exact Ht]. intros Hno. rewrite (Hnl (or_introl Hno)). rewrite map_map. reflexivity.
    Qed.
  End Point.

  Lemma run_complete rs t :
    migrate c walk args (hist s) rs = (t, Done) -> full_read t ->
    exists new, data (after s t) = data s ++ new /\ in_order c pend new
      /\ (Forall no_lock t \/ Forall (in_transaction (c_dialect c)) pend -> new = map (fun f => Applied f (contents_of c f)) pend)
      /\ hist (after s t) = recorded c ms (hist s).
  Proof.
    intros Hm Hfull. pose proof (cr_clean rs t Done Hm Hfull) as Hrun.
    inversion Hrun as [|t0 t1 o' Hn Hg]; subst.
    fold ms in Hg. fold gs in Hg.
    assert (Hne : Forall (fun g => g <> []) gs).
    { eapply Forall_impl; [|exact cr_valid]. intros g [[Hx _]|(m & -> & _)]; [exact Hx|discriminate]. }
    destruct (groups_done c gs t1 Hg Hne s) as (es & Hr & Hi & Hnl). rewrite cr_concat in *.
    exists es. unfold after, survives. rewrite interp_app, (interp_neutral t0) by exact Hn. rewrite Hi. cbn [committed start data hist].
    split; [reflexivity|]. split.
    - rewrite <- cr_names. apply runs_in_order; [exact Hr|exact cr_readable].
    - split; [|reflexivity]. intros Hcase. rewrite Hnl.
      + transitivity (map (fun f => Applied f (contents_of c f)) (map m_name ms)); [rewrite map_map; reflexivity|].
        rewrite cr_names. reflexivity.
      + destruct Hcase as [Hc|Hc]; [left; apply Forall_app in Hc; tauto|right].
        pose proof cr_valid as Hv. rewrite Forall_forall in *. intros g Hgin.
        destruct (valid_is_tx _ _ (Hv g Hgin)) as [[Ht _]|(_ & m & -> & Hnt)]; [exact Ht|].
        exfalso. apply Hnt, Hc. rewrite <- cr_names. apply in_map. rewrite <- cr_concat. apply in_concat.
        exists [m]. split; [exact Hgin|left; reflexivity].
  Qed.
End CleanRun.
