(** Final forms and counterexamples for PropMigrate.v. *)
From Verif Require Import GoStr GoStrFacts ModelSq SpecSql SqFacts ModelHistory HistoryFacts.
From Verif Require Import ModelMigrate SpecDb SpecMigrate MigrateFacts MigrateTrace MigrateBatch MigrateGroups MigratePlan MigrateSafety MigrateLive MigrateRetry MigrateCrash.
From Coq Require Import ZifyBool ZifyNat.

(** ** C14 *)
Lemma after_last_slash_spec n : ~ In "/"%char n -> forall s acc, ~ In "/"%char acc ->
  after_last_slash s acc = n <-> (rev acc ++ s = n \/ exists g, rev acc ++ s = g ++ B"/" ++ n).
Proof.
  intros Hn. induction s as [|x s IH]; intros acc Ha; cbn [after_last_slash].
  - rewrite app_nil_r. split; [auto|]. intros [H|(g & H)]; [exact H|]. exfalso. apply Ha, in_rev. rewrite H.
    apply in_or_app. right. left. reflexivity.
  - unfold ceqb. destruct (Ascii.eqb_spec x "/"%char) as [->|E].
    + rewrite (IH [] (fun H => H)). cbn [rev app]. split.
      * intros [<-|(g & ->)]; [right; exists (rev acc); reflexivity|]. right. exists (rev acc ++ "/"%char :: g).
        rewrite <- app_assoc. reflexivity.
      * intros [H|(g & H)].
        -- exfalso. apply Hn. rewrite <- H. apply in_or_app. right. left. reflexivity.
        -- change (B"/" ++ n) with ("/"%char :: n) in *.
           assert (Hx : forall (a g : bytes), ~ In "/"%char a -> a ++ "/"%char :: s = g ++ "/"%char :: n -> s = n \/ exists g', s = g' ++ "/"%char :: n).
           { induction a as [|y a IHa]; intros g0 Hna He; destruct g0 as [|z g0]; cbn in He.
             - injection He as ->. auto.
             - injection He as _ ->. eauto.
             - injection He as -> _. exfalso. apply Hna. left. reflexivity.
             - injection He as -> He. eapply IHa; [|exact He]. intros Hi. apply Hna. right. exact Hi. }
           eapply Hx; [|exact H]. intros Hi. apply Ha, in_rev. exact Hi.
    + rewrite IH by (intros [Hi|Hi]; [congruence|contradiction]). cbn [rev]. rewrite <- app_assoc. reflexivity.
Qed.
Lemma basename_iff f n : ~ In "/"%char n -> beqb (basename f) n = true <-> named n f.
Proof.
  intros Hn. rewrite beqb_eq. unfold basename, named. rewrite (after_last_slash_spec n Hn f [] (fun H => H)). reflexivity.
Qed.

Lemma skipped_iff f : skipped f = false <-> is_script f.
Proof.
  unfold skipped, is_script.
  assert (N1 : ~ In "/"%char (B"schema.sql")) by (cbn; intuition discriminate).
  assert (N2 : ~ In "/"%char (B"indexes.sql")) by (cbn; intuition discriminate).
  assert (N3 : ~ In "/"%char (B"constraints.sql")) by (cbn; intuition discriminate).
  rewrite <- (basename_iff f _ N1), <- (basename_iff f _ N2), <- (basename_iff f _ N3).
  rewrite <- !has_suffix_iff, !orb_false_iff, negb_false_iff, !not_true_iff_false. tauto.
Qed.

Lemma picks_filter P b fs : (forall f, b f = true <-> P f) -> picks P fs (filter b fs).
Proof.
  intros H. induction fs as [|f fs IH]; cbn [filter]; [constructor|]. destruct (b f) eqn:E.
  - apply picks_yes; [apply H; exact E|exact IH].
  - apply picks_no; [intros Hp; apply H in Hp; congruence|exact IH].
Qed.

Lemma selection_documented files : exists regular repeat,
  sort_and_filter files = regular ++ repeat
  /\ picks (fun f => is_script f /\ ~ is_repeatable f) files regular
  /\ picks (fun f => is_script f /\ is_repeatable f) files repeat.
Proof.
  rewrite sort_and_filter_spec. eexists _, _. split; [reflexivity|]. split; apply picks_filter; intros f;
    rewrite andb_true_iff, negb_true_iff, skipped_iff.
  - rewrite negb_true_iff, <- repeatable_iff, not_true_iff_false. reflexivity.
  - rewrite repeatable_iff. reflexivity.
Qed.

(** ** C54 *)
Lemma selected_scripts c walk args files f : selected_files c walk args = Some files -> In f files -> is_script f.
Proof.
  assert (H : forall l, In f (sort_and_filter l) -> is_script f).
  { intros l. rewrite sort_and_filter_spec, in_app_iff, !filter_In, !andb_true_iff, !negb_true_iff, skipped_iff. tauto. }
  unfold selected_files. destruct args as [|a args].
  - intros [= <-]. apply H.
  - destruct (forallb _ _); [|discriminate]. intros [= <-]. apply H.
Qed.

Lemma undo_name_script f : is_script f -> undo_script f (undo_name f).
Proof.
  intros ((g & ->) & _). unfold undo_name. rewrite trim_suffix_app.
  destruct (has_suffix g (B".txoff")) eqn:E.
  - apply has_suffix_iff in E as (g' & ->). rewrite trim_suffix_app. rewrite <- app_assoc. apply undo_txoff.
  - rewrite trim_suffix_none by exact E. apply undo_sql. intros Hx. apply has_suffix_iff in Hx. congruence.
Qed.

Lemma undone_no_undo c q u : undone c true q u -> u = [].
Proof. inversion 1; congruence. Qed.
Definition is_undo (e : event) : Prop := match fst e with OpUndo _ _ => True | _ => False end.
Definition undo_free (t : list event) : Prop := Forall (fun e => ~ is_undo e) t.
Lemma rolled_undo_free tx b : rolled tx b -> undo_free b.
Proof. unfold undo_free. inversion 1; repeat constructor; cbn; auto. Qed.
Lemma loop_undo_free c tx done q t res : loop_trace c tx done q t res -> undo_free t.
Proof.
  unfold undo_free. induction 1; repeat (constructor; [cbn; auto; fail|]);
    try constructor; try assumption; eapply rolled_undo_free; eassumption.
Qed.
Lemma run_undo_free c q t res : run_trace c q t res -> undo_free t.
Proof.
  inversion 1; subst; [repeat constructor; cbn; auto| |]; unfold undo_free;
    [constructor; [cbn; auto|]|]; eapply loop_undo_free; eassumption.
Qed.
Lemma retry_undo_free c k q t o : retry_trace c true k q t o -> undo_free t.
Proof.
  unfold undo_free.
  induction 1 as [k q t n q' Hr|k q t n q' Hr|k q t n q' Hr|k q t n q' r Hr
                  |k q t n q' r r' t' o Hr Hre Hd Hk Hn Hneg Ht IH|k q t n l q' u Hr Hl Hu Hq|k q t n l q' u r Hr Hl Hu Hn Hs];
    pose proof (run_undo_free _ _ _ _ Hr) as Ha; unfold undo_free in Ha; try exact Ha; apply Forall_app; (split; [exact Ha|]).
  - repeat constructor; cbn; auto.
  - repeat (constructor; [cbn; auto; fail|]). exact IH.
  - rewrite (undone_no_undo _ _ _ Hu). constructor.
  - rewrite (undone_no_undo _ _ _ Hu). repeat constructor; cbn; auto.
Qed.

(** A script that runs outside a transaction has been executed when [run] fails. *)
Lemma run_plain_executed c m t n l q' x : run_trace c [m] t (n, Some l, q') -> is_tx (c_dialect c) [m] = false ->
  c_dir c (m_name m) = Some x -> n = 0%Z /\ q' = [set_started m] /\ exists r, In (OpExec (m_name m) x, r) t.
Proof.
  intros H Ht Hd.
  inversion H as [l0 a0 Hx|r t' res' Hx Hk Hl|t' res' Hx Hl]; subst; try congruence. clear H.
  inversion Hl; subst; try congruence; cbn [app List.length];
    repeat match goal with
    | E : c_dir c (m_name m) = Some ?y |- _ => assert (y = x) by congruence; subst y; clear E
    | E : loop_trace c false _ [] _ _ |- _ => inversion E; subst; clear E; try congruence
    end; (split; [reflexivity|]; split; [reflexivity|]; eexists; left; reflexivity).
Qed.

Lemma undo_last c walk args h rs t o a u y r b :
  migrate c walk args h rs = (t, o) -> c_skip_history c = false -> t = a ++ (OpUndo u y, r) :: b ->
  exists f row r', undo_script f u /\ c_dir c u = Some y /\ ~ in_transaction (c_dialect c) f
    /\ (exists x r0, In (OpExec f x, r0) a)
    /\ r_name row = f /\ r_success row = false /\ b = [(OpUpsert [row], r')].
Proof.
  intros H Hsk E. pose proof H as Hmig.
  assert (Hmid : forall (a : list event) e b, In e (a ++ e :: b)) by (intros; apply in_or_app; right; left; reflexivity).
  assert (Hfree : forall (a b : list event), undo_free (a ++ (OpUndo u y, r) :: b) -> False).
  { intros a0 b0 Hu. unfold undo_free in Hu. rewrite Forall_forall in Hu. apply (Hu _ (Hmid _ _ _)). exact I. }
  destruct (migrate_groups _ _ _ _ _ _ _ H) as (t0 & t1 & gs & fin & -> & Hr & Hg & Hv & Hrest).
  apply app_split in E as [(b1 & E & _)|(a2 & -> & ->)].
  { exfalso. destruct (Hr (OpUndo u y, r)) as [Hx|Hx]; [rewrite E; apply Hmid|discriminate|discriminate]. }
  destruct (groups_batch _ _ _ _ _ Hg _ _ _ eq_refl) as (g & tg & og & a1 & b1 & b2 & Hin & Hb & E1 & -> & Hend & a0 & ->).
  rewrite Forall_forall in Hv. pose proof (Hv g Hin) as Hvg.
  inversion Hb as [t2 o0 Ht' Hr'|m' Ht' Hh Hd'|m z t2 o0 Ht' Hq Hd' Hr']; subst tg; subst.
  - exfalso. eapply Hfree. eapply retry_undo_free. exact Hr'.
  - destruct a1; discriminate.
  - destruct (single_statement z) eqn:Es; [exfalso; eapply Hfree; eapply retry_undo_free; exact Hr'|].
    remember (a1 ++ (OpUndo u y, r) :: b1) as tt eqn:Ett.
    destruct (valid_is_tx _ _ Hvg) as [[Ht2 _]|(_ & m2 & Em & Hn)]; [congruence|]. injection Em as <-.
    inversion Hr' as [k q t2 n q' Hr2|k q t2 n q' Hr2|k q t2 n q' Hr2|k q t2 n q' r2 Hr2
                  |k q t2 n q' r2 r' t' o2 Hr2|k q t2 n l q' u2 Hr2 Hl Hu Hq|k q t2 n l q' u2 r2 Hr2 Hl Hu Hn2 Hs]; subst; try discriminate.
    + exfalso. eapply Hfree. eapply run_undo_free. exact Hr2.
    + exfalso. destruct (run_plain_executed _ _ _ _ _ _ _ Hr2 Ht' Hd') as (-> & _). destruct Hq; [lia|congruence].
    + match goal with E : _ = a1 ++ _ |- _ => rename E into E2 end.
      destruct (run_plain_executed _ _ _ _ _ _ _ Hr2 Ht' Hd') as (-> & -> & r3 & Hex).
      apply app_split in E2 as [(b3 & -> & ->)|(a3 & E2 & ->)]; [exfalso; eapply Hfree; eapply run_undo_free; exact Hr2|].
      rewrite (Hend ltac:(discriminate)), app_nil_r.
      inversion Hu as [Hre|Hq|m1 q1 Hre Hq Hd|m1 q1 x1 r1 Hre Hq Hd]; subst; try discriminate.
      * destruct a3 as [|? [|? ?]]; discriminate.
      * injection Hq as <- <-. destruct a3 as [|? [|? [|? ?]]]; try discriminate. injection E2 as <- <- <- <-.
        exists (m_name m), (failure_row (set_started m)), r2.
        split; [|split; [exact Hd|split; [exact Hn|split; [|split; [reflexivity|split; [reflexivity|reflexivity]]]]]].
        -- apply undo_name_script. destruct (selected_files c walk args) as [files|] eqn:Ef.
           ++ eapply selected_scripts; [exact Ef|]. destruct Hrest as [_ Hsub]. eapply subseq_In; [apply (Hsub _ eq_refl)|].
              apply in_map. apply in_concat. exists [m]. split; [exact Hin|left; reflexivity].
           ++ exfalso. unfold migrate in Hmig. rewrite Ef in Hmig. apply ret_inv in Hmig as [Hmig _].
              apply app_eq_nil in Hmig as [_ Hmig]. apply app_eq_nil in Hmig as [_ Hmig].
              symmetry in Hmig. destruct t2; discriminate.
        -- exists z, r3. rewrite app_nil_r. apply in_or_app. right. apply in_or_app. right. exact Hex.
Qed.

(** ** C19 *)
(** Complete effects come from executions. *)
Definition executed_in (l : list effect) (p : list event) : Prop :=
  forall f x, In (Applied f x) l -> exists r, In (OpExec f x, r) p.
Lemma interp_snoc s p e : interp s (p ++ [e]) = step (interp s p) e.
Proof. unfold interp. rewrite fold_left_app. reflexivity. Qed.
Lemma effects_executed s p : let st := interp (start s) p in
  (exists l, data (committed st) = data s ++ l /\ executed_in l p)
  /\ forall w, working st = Some w -> exists l, data w = data s ++ l /\ executed_in l p.
Proof.
  induction p as [|e p [(l & H1 & H1') H2]] using rev_ind; cbn zeta.
  - split; [exists []; split; [symmetry; apply app_nil_r|intros f x []]|discriminate].
  - cbn zeta in *. rewrite interp_snoc. set (st := interp (start s) p) in *.
    assert (Hmono : forall l, executed_in l p -> executed_in l (p ++ [e])).
    { intros l0 H f x Hi. destruct (H f x Hi) as (r & Hr). exists r. apply in_or_app. left. exact Hr. }
    assert (Hcur : exists l, data (current st) = data s ++ l /\ executed_in l p).
    { unfold current. destruct (working st) as [w|] eqn:E; [apply H2; reflexivity|eauto]. }
    assert (Hupd : forall w, (exists l, data w = data s ++ l /\ executed_in l (p ++ [e])) ->
       (exists l, data (committed (update st w)) = data s ++ l /\ executed_in l (p ++ [e]))
       /\ forall w', working (update st w) = Some w' -> exists l, data w' = data s ++ l /\ executed_in l (p ++ [e])).
    { intros w Hw. unfold update. destruct (working st) as [w0|] eqn:E; cbn [committed working].
      - split; [eauto|]. intros w' [= <-]. exact Hw.
      - split; [exact Hw|discriminate]. }
    assert (Hsame : (exists l, data (committed st) = data s ++ l /\ executed_in l (p ++ [e]))
       /\ forall w', working st = Some w' -> exists l, data w' = data s ++ l /\ executed_in l (p ++ [e])).
    { split; [eauto|]. intros w' E. destruct (H2 w' E) as (l0 & ? & ?). eauto. }
    assert (Habort : (exists l, data (committed (abort st)) = data s ++ l /\ executed_in l (p ++ [e]))
       /\ forall w', working (abort st) = Some w' -> exists l, data w' = data s ++ l /\ executed_in l (p ++ [e])).
    { split; [eauto|discriminate]. }
    assert (Hcommit : (exists l, data (committed (commit st)) = data s ++ l /\ executed_in l (p ++ [e]))
       /\ forall w', working (commit st) = Some w' -> exists l, data w' = data s ++ l /\ executed_in l (p ++ [e])).
    { unfold commit. destruct (working st) as [w|] eqn:E; [|split; [exact (proj1 Hsame)|rewrite E; discriminate]].
      cbn [committed working]. split; [|discriminate]. destruct (H2 w eq_refl) as (l0 & ? & ?). eauto. }
    assert (Hrows : forall rows, (exists l, data (committed (write_rows rows st)) = data s ++ l /\ executed_in l (p ++ [e]))
       /\ forall w', working (write_rows rows st) = Some w' -> exists l, data w' = data s ++ l /\ executed_in l (p ++ [e])).
    { intros rows. apply Hupd. cbn [data]. destruct Hcur as (l0 & ? & ?). eauto. }
    assert (Heff : forall ef, (forall f x, ef = Applied f x -> exists r, In (OpExec f x, r) [e]) ->
       (exists l, data (committed (add_effect ef st)) = data s ++ l /\ executed_in l (p ++ [e]))
       /\ forall w', working (add_effect ef st) = Some w' -> exists l, data w' = data s ++ l /\ executed_in l (p ++ [e])).
    { intros ef Hef. apply Hupd. cbn [data]. destruct Hcur as (l0 & Hl & Hl'). exists (l0 ++ [ef]).
      split; [rewrite Hl; symmetry; apply app_assoc|]. intros f x Hi. apply in_app_or in Hi as [Hi|[Hi|[]]].
      - apply Hmono in Hl'. exact (Hl' f x Hi).
      - destruct (Hef f x Hi) as (r & Hr). exists r. apply in_or_app. right. exact Hr. }
    destruct e as [o r]. destruct o; cbn [step]; try exact Hsame; try exact Habort.
    + destruct (is_ok r); [|exact Hsame]. cbn [committed working]. split; [eauto|]. intros w [= <-]. eauto.
    + destruct r as [|l0 [|]|k]; try exact Hsame; apply Heff; intros f0 x0 E; try discriminate;
        injection E as <- <-; eexists; left; reflexivity.
    + destruct r as [|[|] [|]|k]; try exact Hsame; apply Hrows.
    + destruct r as [|[|] [|]|k]; try exact Habort; exact Hcommit.
    + destruct r as [|l0 [|]|k]; try exact Hsame; apply Heff; intros f0 x0 E; discriminate.
Qed.

Lemma run_prefix c walk args files s rs t o p :
  migrate c walk args (hist s) rs = (t, o) -> selected_files c walk args = Some files -> prefix p t ->
  exists todo gs k done rest new tail,
    subseq todo files /\ grouping (c_dialect c) todo gs
    /\ done = concat (firstn k gs) /\ done ++ rest = todo
    /\ data (after s p) = data s ++ new ++ tail /\ in_order c done new
    /\ (Forall no_lock p -> each_once c done new)
    /\ (tail = [] \/ exists f rest', rest = f :: rest' /\ ~ in_transaction (c_dialect c) f /\ Forall (effect_about c f) tail).
Proof.
  intros H Hsel Hp. pose proof H as Hmig.
  destruct (migrate_groups _ _ _ _ _ _ _ H) as (t0 & t1 & gs & fin & -> & Hr & Hg & Hv & _ & Hsub).
  destruct (Hsub files Hsel) as (_ & kept & extra & Hk & Hsub'). clear Hsub. rename Hsub' into Hsub.
  destruct (batches_start (c_dialect c) kept) as (_ & Hcc & Hgr). rewrite <- Hk in Hcc, Hgr.
  assert (Hne : Forall (fun g => g <> []) gs).
  { eapply Forall_impl; [|exact Hv]. intros g [[Hx _]|(m & -> & _)]; [exact Hx|discriminate]. }
  assert (Hneu : Forall (fun e => neutral e = true) t0).
  { apply Forall_forall. intros [op r] He. destruct (Hr _ He) as [E|E]; cbn in E; subst op; reflexivity. }
  assert (Hpt : at_point c s (gs ++ extra) p (after s p)).
  { apply at_point_more; [|intros Hall; apply Forall_app in Hall; tauto].
    unfold after, survives. apply prefix_app in Hp as [Hp|(q & -> & Hp)].
    - rewrite interp_neutral; [apply at_point_start|eapply prefix_Forall; eassumption].
    - rewrite interp_app, (interp_neutral t0) by exact Hneu.
      pose proof (groups_point _ _ _ _ _ Hg Hne s q Hp) as [k sk es Hr1 Hnl Hsk Hx].
      apply (ap_between c s gs (t0 ++ q) _ k sk es); [exact Hr1| |exact Hsk|].
      + intros [Hl|Hl]; apply Hnl; [left; apply Forall_app in Hl; tauto|right; exact Hl].
      + destruct Hx as [Hx|[Hx|[(k' & g & rows & E1 & E2 & E3 & E4 & E5 & E6)|Hx]]]; [left; exact Hx|right; left; exact Hx| |right; right; right; exact Hx].
        right. right. left. exists k', g, rows. split; [exact E1|]. split; [exact E2|]. split; [exact E3|].
        split; [exact E4|]. split; [|exact E6]. apply went_on_app. exact E5. }
  destruct Hpt as [k sk es Hr1 Hnl Hsk Hx].
  assert (Htail : exists tail, data (after s p) = data s ++ es ++ tail
                /\ (tail = [] \/ exists f rest', map m_name (concat (skipn k (gs ++ extra))) = f :: rest' /\ ~ in_transaction (c_dialect c) f /\ Forall (about c f) tail)).
  { destruct Hx as [Hx|[(g0 & rows & _ & _ & _ & Hx)|[(k' & g0 & rows & _ & _ & _ & _ & _ & Hx)|(m & tail & Hn & Hnt & Hd & Ha & _)]]].
    - exists []. rewrite app_nil_r, Hx, Hsk. split; [reflexivity|left; reflexivity].
    - exists []. rewrite app_nil_r, Hx, Hsk. split; [reflexivity|left; reflexivity].
    - exists []. rewrite app_nil_r, Hx, Hsk. split; [reflexivity|left; reflexivity].
    - exists tail. rewrite Hd, Hsk. cbn [data]. split; [symmetry; apply app_assoc|]. right.
      destruct (nth_error_skipn _ _ _ Hn) as (r & ->). cbn [concat app map].
      exists (m_name m), (map m_name (concat r)). split; [reflexivity|]. split; [|exact Ha].
      intros Hin. apply is_tx_single in Hin. congruence. }
  destruct Htail as (tail & Hd & Ht).
  assert (Hread : Forall (fun m => readable c (m_name m)) (concat (firstn k (gs ++ extra)))).
  { destruct (effects_executed s p) as [(l & Hl & Hex) _].
    change (data (committed (interp (start s) p))) with (data (after s p)) in Hl. rewrite Hd in Hl. apply app_inv_head in Hl. subst l.
    apply Forall_forall. intros m Hm. destruct (Hex (m_name m) (contents_of c (m_name m))) as (r & Hi).
    { apply in_or_app. left. exact (runs_In _ _ _ Hr1 m Hm). }
    assert (Hi' : In (OpExec (m_name m) (contents_of c (m_name m)), r) (t0 ++ t1)).
    { destruct Hp as (q & ->). apply in_or_app. left. exact Hi. }
    apply in_app_or in Hi' as [Hi'|Hi']; [destruct (Hr _ Hi'); discriminate|].
    pose proof (groups_events _ _ _ _ _ Hg) as Hev. rewrite Forall_forall in Hev. apply Hev in Hi'. destruct Hi' as [_ Hi'].
    unfold readable. rewrite Hi'. discriminate. }
  assert (Hgs : firstn k (map (map m_name) (gs ++ extra)) = map (map m_name) (firstn k (gs ++ extra))) by apply firstn_map.
  exists (map m_name kept), (map (map m_name) (gs ++ extra)), k, (map m_name (concat (firstn k (gs ++ extra)))), (map m_name (concat (skipn k (gs ++ extra)))), es, tail.
  split; [exact Hsub|]. split; [exact Hgr|]. split; [rewrite Hgs, concat_map; reflexivity|].
  split; [rewrite <- map_app, <- concat_firstn_skipn, Hcc; reflexivity|]. split; [exact Hd|].
  split; [apply runs_in_order; assumption|]. split.
  - intros Hno. rewrite (Hnl (or_introl Hno)). clear - Hread.
    induction Hread as [|m ms Hm Hms IH]; cbn [map]; [constructor|]. unfold readable in Hm. unfold applied at 1, contents_of.
    destruct (c_dir c (m_name m)) as [x|] eqn:E; [|congruence]. apply each_cons; [exact E|exact IH].
  - destruct Ht as [->|(f & rest' & E & Hnt & Ha)]; [left; reflexivity|right]. exists f, rest'. split; [exact E|]. split; [exact Hnt|].
    eapply Forall_impl; [|exact Ha]. intros [g x|g x|u x]; cbn [about].
    + intros [-> Hx']. apply about_applied. exact Hx'.
    + intros [-> Hx']. apply about_partly. exact Hx'.
    + intros [-> Hx']. apply about_undone; [|exact Hx']. apply undo_name_script. eapply selected_scripts; [exact Hsel|].
      eapply subseq_In; [exact Hsub|]. rewrite <- Hcc, (concat_firstn_skipn k (gs ++ extra)), map_app, E. apply in_or_app. right. left. reflexivity.
Qed.

(** ** Final forms in terms of the documented grouping *)
Lemma run_atomic_group c walk args files s pend gs rs t o p g :
  clean c walk args files -> NoDup (map r_name (hist s)) -> pending c (hist s) files pend ->
  grouping (c_dialect c) pend gs -> migrate c walk args (hist s) rs = (t, o) -> full_read t -> prefix p t ->
  In g gs -> Forall (in_transaction (c_dialect c)) g ->
  exists new, data (after s p) = data s ++ new /\
  ((forall f, In f g -> exists x, c_dir c f = Some x /\ In (Applied f x) new)
   \/ ((forall f e, In f g -> In e new -> ~ effect_of f e)
       /\ forall r, In r (hist (after s p)) -> In (r_name r) g -> r_success r = true -> In r (hist s))).
Proof.
  intros Hcl Hh Hp Hg Hm Hfull Hpre Hin Htx.
  rewrite (grouping_unique _ _ _ Hg _ (cr_grouping c s pend)) in Hin.
  eapply run_atomic; eassumption.
Qed.

Lemma each_once_map c fs es : each_once c fs es <-> (Forall (readable c) fs /\ es = map (fun f => Applied f (contents_of c f)) fs).
Proof.
  split.
  - induction 1 as [|f x fs es Hx H [IH1 IH2]]; [split; [constructor|reflexivity]|]. subst es. split.
    + constructor; [unfold readable; congruence|exact IH1].
    + cbn [map]. unfold contents_of at 2. rewrite Hx. reflexivity.
  - intros [H ->]. induction H as [|f fs Hf H IH]; cbn [map]; [constructor|]. unfold readable in Hf. unfold contents_of at 1.
    destruct (c_dir c f) as [x|] eqn:E; [|congruence]. apply each_cons; assumption.
Qed.

Lemma pending_readable c walk args files s pend : clean c walk args files -> pending c (hist s) files pend ->
  Forall (readable c) pend.
Proof.
  intros Hcl Hp. apply Forall_forall. intros f Hf. apply (pending_In _ _ _ _ Hp) in Hf as [Hf _].
  pose proof (cl_read _ _ _ _ Hcl) as Hr. rewrite Forall_forall in Hr. apply Hr. exact Hf.
Qed.

Lemma run_pending c walk args files s pend gs rs t o p :
  clean c walk args files -> NoDup (map r_name (hist s)) -> pending c (hist s) files pend ->
  grouping (c_dialect c) pend gs -> migrate c walk args (hist s) rs = (t, o) -> full_read t -> prefix p t ->
  exists k rest new tail,
    concat (firstn k gs) ++ rest = pend /\ data (after s p) = data s ++ new ++ tail
    /\ in_order c (concat (firstn k gs)) new
    /\ (Forall no_lock p -> each_once c (concat (firstn k gs)) new)
    /\ (tail = [] \/ exists f rest', rest = f :: rest' /\ ~ in_transaction (c_dialect c) f /\ Forall (effect_about c f) tail).
Proof.
  intros Hcl Hh Hp Hg Hm Hfull Hpre.
  rewrite (grouping_unique _ _ _ Hg _ (cr_grouping c s pend)).
  destruct (run_progress _ _ _ _ _ Hcl Hh _ Hp _ _ _ _ Hm Hfull Hpre) as (k & rest & new & tail & E1 & E2 & E3 & E4 & E5).
  exists k, rest, new, tail. split; [exact E1|]. split; [exact E2|]. split; [exact E3|].
  pose proof (pending_readable _ _ _ _ _ _ Hcl Hp) as Hr. split.
  - intros Hno. apply each_once_map. split; [|apply E4; exact Hno]. rewrite <- E1 in Hr. apply Forall_app in Hr. tauto.
  - destruct E5 as [->|(f & rest' & -> & Hnt & Ha)]; [left; reflexivity|right]. exists f, rest'. split; [reflexivity|]. split; [exact Hnt|].
    eapply Forall_impl; [|exact Ha]. intros [h x|h x|u x]; cbn [about].
    + intros [-> Hx']. apply about_applied. exact Hx'.
    + intros [-> Hx']. apply about_partly. exact Hx'.
    + intros [-> Hx']. apply about_undone; [|exact Hx']. apply undo_name_script. eapply selected_scripts; [apply (cl_files _ _ _ _ Hcl)|].
      assert (Hf : In f pend) by (rewrite <- E1; apply in_or_app; right; left; reflexivity).
      apply (pending_In _ _ _ _ Hp) in Hf. tauto.
Qed.

Lemma run_all_pending c walk args files s pend rs t :
  clean c walk args files -> NoDup (map r_name (hist s)) -> pending c (hist s) files pend ->
  migrate c walk args (hist s) rs = (t, Done) -> full_read t ->
  exists new, data (after s t) = data s ++ new /\ in_order c pend new
    /\ (Forall no_lock t \/ Forall (in_transaction (c_dialect c)) pend -> each_once c pend new)
    /\ (c_skip_history c = false -> forall f, In f files -> up_to_date c (hist (after s t)) f).
Proof.
  intros Hcl Hh Hp Hm Hfull.
  destruct (run_complete _ _ _ _ _ Hcl Hh _ Hp _ _ Hm Hfull) as (new & E1 & E2 & E3 & E4).
  exists new. split; [exact E1|]. split; [exact E2|]. split.
  - intros Hc. apply each_once_map. split; [eapply pending_readable; eassumption|apply E3; exact Hc].
  - intros Hsk f Hf.
    assert (Hdec : {In f pend} + {~ In f pend}) by apply (in_dec (list_eq_dec Ascii.ascii_dec)).
    apply up_to_date_lookup; [apply after_keyed; exact Hh|]. rewrite E4. destruct Hdec as [Hi|Hi].
    + exists (success_row (due c (seen c (hist s)) f)). split.
      * replace f with (m_name (due c (seen c (hist s)) f)) at 1 by apply due_name.
        apply lookup_recorded_in; [exact Hsk| |apply in_map; exact Hi]. rewrite names_due.
        eapply pending_NoDup; [exact Hp|apply (cl_nodup _ _ _ _ Hcl)].
      * split; [reflexivity|]. intros Hrep. apply repeatable_iff in Hrep.
        pose proof (pending_readable _ _ _ _ _ _ Hcl Hp) as Hr. rewrite Forall_forall in Hr. specialize (Hr f Hi). unfold readable in Hr.
        destruct (c_dir c f) as [x|] eqn:E; [|congruence]. exists x. split; [reflexivity|].
        cbn [success_row r_checksum]. unfold due. rewrite Hrep. cbn [with_checksum m_checksum]. unfold contents_of, checksum_of.
        rewrite E, lf_only_replace. reflexivity.
    + rewrite lookup_recorded_other by (rewrite names_due; exact Hi). apply up_to_date_lookup; [exact Hh|].
      pose proof (cl_read _ _ _ _ Hcl) as Hr. rewrite Forall_forall in Hr.
      destruct (decide_entry c (hist s) f (cl_hash _ _ _ _ Hcl) Hh (Hr f Hf)) as [[Hu _]|[Hu _]]; [exact Hu|].
      exfalso. apply Hi. apply (pending_In _ _ _ _ Hp). auto.
Qed.

(** ** C55 *)
Lemma second_run c walk args files s rs t rs2 t2 o2 :
  clean c walk args files -> c_skip_history c = false -> NoDup (map r_name (hist s)) ->
  migrate c walk args (hist s) rs = (t, Done) -> full_read t ->
  migrate c walk args (hist (after s t)) rs2 = (t2, o2) -> full_read t2 ->
  no_exec t2 /\ after (after s t) t2 = after s t.
Proof.
  intros Hcl Hsk Hh Hm Hfull Hm2 Hfull2.
  destruct (pending_exists c (hist s) files (cl_read _ _ _ _ Hcl) (cl_hash _ _ _ _ Hcl) Hh) as (p & Hp).
  destruct (run_all_pending _ _ _ _ _ _ _ _ Hcl Hh Hp Hm Hfull) as (new & _ & _ & _ & Hall). specialize (Hall Hsk).
  assert (Hh2 : NoDup (map r_name (hist (after s t)))) by (apply after_keyed; exact Hh).
  destruct (pending_exists c (hist (after s t)) files (cl_read _ _ _ _ Hcl) (cl_hash _ _ _ _ Hcl) Hh2) as (p2 & Hp2).
  assert (E : p2 = []).
  { destruct p2 as [|f p2]; [reflexivity|]. exfalso.
    assert (Hf : In f (f :: p2)) by (left; reflexivity).
    apply (pending_In _ _ _ _ Hp2) in Hf as [Hf [Hx|Hx]]; [congruence|]. apply Hx, Hall, Hf. }
  subst p2. pose proof (migrate_clean _ _ _ _ _ _ _ _ _ Hcl Hh2 Hp2 Hm2 Hfull2) as Hrun.
  assert (Hn : Forall (fun e => neutral e = true) t2).
  { inversion Hrun as [? Hx|t0 t1 o' Hx Hg]; subst; [exact Hx|]. cbn [map batches] in Hg. inversion Hg; subst.
    rewrite app_nil_r. exact Hx. }
  split.
  - intros f x r Hi. rewrite Forall_forall in Hn. apply Hn in Hi. discriminate.
  - unfold after at 1, survives. rewrite interp_neutral by exact Hn. reflexivity.
Qed.

(** ** C52 *)
Lemma trim_prefix_none s p : has_prefix s p = false -> trim_prefix s p = s.
Proof. unfold trim_prefix, has_prefix. destruct (strip_prefix p s); [discriminate|reflexivity]. Qed.
Lemma strip_dot_none s : has_prefix s (B".") = false -> strip_dot s = s.
Proof. unfold strip_dot. intros ->. reflexivity. Qed.
Lemma strip_dot_here s : has_prefix s (B"/") = false -> strip_dot (B"./" ++ s) = s.
Proof.
  intros H. unfold strip_dot. change (B"./" ++ s) with (B"." ++ (B"/" ++ s)). rewrite has_prefix_app, trim_prefix_app, trim_prefix_app. reflexivity.
Qed.
Lemma has_prefix_hd s c : has_prefix s [c] = true <-> hd_error s = Some c.
Proof.
  rewrite has_prefix_iff. split.
  - intros (r & ->). reflexivity.
  - destruct s as [|x s]; [discriminate|]. cbn. intros [= ->]. exists s. reflexivity.
Qed.

(** The two spellings of a relative path. *)
Definition spelled (s x : bytes) : Prop := x = s \/ x = B"./" ++ s.

Lemma normalize_inside d f dir x slash :
  d <> [] -> hd_error d <> Some "."%char -> hd_error d <> Some "/"%char -> hd_error f <> Some "/"%char ->
  slash = [] \/ slash = B"/" ->
  spelled (d ++ slash) dir -> spelled (d ++ B"/" ++ f) x -> normalize_filename x dir = f.
Proof.
  intros Hd Hdot Hsl Hf Hslash Hdir Hx.
  assert (Hh : forall r, hd_error (d ++ r) = hd_error d) by (intros r; destruct d; [congruence|reflexivity]).
  assert (Hnp : forall c r, hd_error d <> Some c -> has_prefix (d ++ r) [c] = false).
  { intros c r Hc. destruct (has_prefix (d ++ r) [c]) eqn:E; [|reflexivity]. apply has_prefix_hd in E. rewrite Hh in E. contradiction. }
  assert (E1 : strip_dot x = d ++ B"/" ++ f).
  { destruct Hx as [->| ->]; [apply strip_dot_none, Hnp, Hdot|apply strip_dot_here, Hnp, Hsl]. }
  assert (E2 : strip_dot dir = d ++ slash).
  { destruct Hdir as [->| ->]; [apply strip_dot_none, Hnp, Hdot|apply strip_dot_here, Hnp, Hsl]. }
  assert (Hne : dir <> []).
  { destruct Hdir as [->| ->]; [destruct d; [congruence|discriminate]|discriminate]. }
  assert (Hff : trim_prefix f (B"/") = f).
  { apply trim_prefix_none. destruct (has_prefix f (B"/")) eqn:E; [|reflexivity]. apply has_prefix_hd in E. contradiction. }
  unfold normalize_filename. destruct dir as [|a dir]; [congruence|]. rewrite E1, E2.
  destruct Hslash as [->| ->].
  - rewrite app_nil_r, trim_prefix_app, trim_prefix_app. reflexivity.
  - rewrite app_assoc, trim_prefix_app. exact Hff.
Qed.

Lemma normalize_relative d f dir x :
  hd_error d <> Some "."%char -> hd_error d <> Some "/"%char ->
  hd_error f <> Some "."%char -> hd_error f <> Some "/"%char -> (d = [] \/ ~ exists r, f = d ++ r) ->
  dir = [] \/ spelled d dir -> x = f \/ (dir <> [] /\ x = B"./" ++ f) -> normalize_filename x dir = f.
Proof.
  intros Hdot Hsl Hf Hf' Hpre Hdir Hx.
  assert (Hff : has_prefix f (B"/") = false).
  { destruct (has_prefix f (B"/")) eqn:E; [|reflexivity]. apply has_prefix_hd in E. contradiction. }
  assert (Hfd : has_prefix f (B".") = false).
  { destruct (has_prefix f (B".")) eqn:E; [|reflexivity]. apply has_prefix_hd in E. contradiction. }
  unfold normalize_filename. destruct dir as [|a dir].
  { destruct Hx as [->|[Hx _]]; [reflexivity|congruence]. }
  destruct Hdir as [Hdir|Hdir]; [discriminate|].
  assert (E1 : strip_dot x = f).
  { destruct Hx as [->|[_ ->]]; [apply strip_dot_none; exact Hfd|apply strip_dot_here; exact Hff]. }
  assert (E2 : strip_dot (a :: dir) = d).
  { destruct Hdir as [E| ->]; [rewrite E; apply strip_dot_none|apply strip_dot_here];
      match goal with |- has_prefix d ?p = false => destruct (has_prefix d p) eqn:E3; [apply has_prefix_hd in E3; contradiction|reflexivity] end. }
  rewrite E1, E2. assert (E3 : trim_prefix f d = f).
  { destruct Hpre as [->|Hpre]; [reflexivity|]. apply trim_prefix_none. destruct (has_prefix f d) eqn:E; [|reflexivity].
    apply has_prefix_iff in E. contradiction. }
  rewrite E3. apply trim_prefix_none. exact Hff.
Qed.

(** ** Counterexamples *)
Definition files_of (l : list (bytes * bytes)) (f : bytes) : option bytes :=
  match find (fun x => beqb (fst x) f) l with Some x => Some (snd x) | None => None end.
Definition demo (d : dialect) (l : list (bytes * bytes)) : config :=
  {| c_dialect := d; c_skip_history := false; c_max_attempts := 10; c_base_delay := second;
     c_max_delay := 300 * second; c_detects_lock := true; c_hash := fun x => "h"%char :: x;
     c_dir := files_of l |}.
Definition with_delays (c : config) (attempts base max : Z) : config :=
  {| c_dialect := c_dialect c; c_skip_history := c_skip_history c; c_max_attempts := attempts;
     c_base_delay := base; c_max_delay := max; c_detects_lock := c_detects_lock c;
     c_hash := c_hash c; c_dir := c_dir c |}.
Definition replies (l : list reply) (n : nat) : reply := nth n l ROk.
Definition empty : store := {| data := []; hist := [] |}.
Definition applied_row (f : bytes) : row :=
  {| r_name := f; r_checksum := None; r_started := true; r_success := true |}.

Definition one : config := demo Postgres [(B"1.sql", B"SELECT 1")].
Definition one_done : store := {| data := [Applied (B"1.sql") (B"SELECT 1")]; hist := [applied_row (B"1.sql")] |}.

(** The history says success, nothing goes wrong, the script is executed. *)
Definition runs_again (s : store) : Prop := exists c walk args rs t o f x r row,
  migrate c walk args (hist s) rs = (t, o) /\ all_ok t /\ In row (hist s) /\ r_name row = f
  /\ r_success row = true /\ ~ is_repeatable f /\ In (OpExec f x, r) t.

Lemma all_ok_compute t : forallb (fun e : event => is_ok (snd e)) t = true -> all_ok t.
Proof. intros H o r Hi. rewrite forallb_forall in H. apply (H (o, r) Hi). Qed.

Lemma again_duplicate : runs_again one_done.
Proof.
  exists one, [], (map B ["1.sql"; "1.sql"]%string), (replies []).
  eexists _, _, (B"1.sql"), (B"SELECT 1"), ROk, (applied_row (B"1.sql")).
  split; [vm_compute; reflexivity|]. split; [apply all_ok_compute; vm_compute; reflexivity|].
  split; [left; reflexivity|]. split; [reflexivity|]. split; [reflexivity|]. split; [intros (g & H); discriminate|].
  vm_compute. auto 10.
Qed.
Definition quoted : bytes := B"it''s.sql".
Definition quoted_done : store := {| data := [Applied quoted (B"SELECT 1")]; hist := [applied_row quoted] |}.
Lemma again_quoted : runs_again quoted_done.
Proof.
  exists (demo SQLite [(quoted, B"SELECT 1")]), [quoted], [], (replies []).
  eexists _, _, quoted, (B"SELECT 1"), ROk, (applied_row quoted).
  split; [vm_compute; reflexivity|]. split; [apply all_ok_compute; vm_compute; reflexivity|].
  split; [left; reflexivity|]. split; [reflexivity|]. split; [reflexivity|]. split; [intros (g & H); discriminate|].
  vm_compute. auto 10.
Qed.
Lemma again_truncated : runs_again one_done.
Proof.
  exists one, [B"1.sql"], [], (replies [ROk; RVal 0]).
  eexists _, _, (B"1.sql"), (B"SELECT 1"), ROk, (applied_row (B"1.sql")).
  split; [vm_compute; reflexivity|]. split; [apply all_ok_compute; vm_compute; reflexivity|].
  split; [left; reflexivity|]. split; [reflexivity|]. split; [reflexivity|]. split; [intros (g & H); discriminate|].
  vm_compute. auto 10.
Qed.

Lemma plain_compute d f : forallb (fun a => negb (ceqb a squote) && negb (ceqb a backslash)) f = true -> plain_name d f.
Proof.
  intros H. rewrite forallb_forall in H. split.
  - intros (a & x & b & ->). assert (Hi : In squote (a ++ squote :: squote :: x :: b)) by (apply in_or_app; right; left; reflexivity).
    apply H in Hi. discriminate.
  - intros _ Hi. apply H in Hi. discriminate.
Qed.

(** C18 *)
Definition rep_quoted : bytes := B"repeatable/it''s.sql".
Definition rep_done : store :=
  {| data := [Applied rep_quoted (B"SELECT 1")];
     hist := [{| r_name := rep_quoted; r_checksum := Some (B"hSELECT 1"); r_started := true; r_success := true |}] |}.
Lemma unchanged_runs : exists c walk args s rs t o f x r,
  migrate c walk args (hist s) rs = (t, o) /\ all_ok t /\ is_repeatable f /\ up_to_date c (hist s) f
  /\ In (OpExec f x, r) t.
Proof.
  exists (demo SQLite [(rep_quoted, B"SELECT 1")]), [rep_quoted], [], rep_done, (replies []).
  eexists _, _, rep_quoted, (B"SELECT 1"), ROk.
  split; [vm_compute; reflexivity|]. split; [apply all_ok_compute; vm_compute; reflexivity|].
  split; [exists (B"it''s.sql"); reflexivity|]. split; [|vm_compute; auto 10].
  eexists. split; [left; reflexivity|]. split; [reflexivity|]. split; [reflexivity|]. intros _. exists (B"SELECT 1"). split; reflexivity.
Qed.

(** C21: BaseDelay above MaxDelay *)
Lemma waits_too_long : exists c walk args h rs t o d r,
  migrate c walk args h rs = (t, o) /\ In (OpSleep d, r) t /\ (c_max_delay c < d)%Z.
Proof.
  exists (with_delays one 2 (10 * second) (5 * second)), [B"1.sql"], [], [], (replies [ROk; ROk; ROk; RErr true false]).
  eexists _, _, (10 * second)%Z, ROk. split; [vm_compute; reflexivity|]. split; [vm_compute; auto 20|vm_compute; reflexivity].
Qed.

(** C22 *)
Lemma panics_at_begin : exists c walk args h rs t,
  sane_delays c /\ migrate c walk args h rs = (t, Panicked).
Proof.
  exists one, [B"1.sql"], [], [], (replies [ROk; ROk; RErr true false]). eexists.
  split; [split; vm_compute; congruence|vm_compute; reflexivity].
Qed.
Lemma panics_small_delay : exists c walk args h rs t,
  (0 < c_base_delay c < c_max_delay c)%Z /\ no_begin_timeout t /\ migrate c walk args h rs = (t, Panicked).
Proof.
  exists (with_delays one 10 (second / 10) second), [B"1.sql"], [], [], (replies [ROk; ROk; ROk; RErr true false]). eexists.
  split; [split; vm_compute; reflexivity|]. split; [|vm_compute; reflexivity].
  intros ap Hi. cbn in Hi. repeat (destruct Hi as [Hi|Hi]; [discriminate|]). exact Hi.
Qed.
(** The default delays, but more than 34 attempts. *)
Lemma panics_many_attempts : exists c walk args h rs t,
  c_base_delay c = second /\ c_max_delay c = (300 * second)%Z /\ c_max_attempts c = 50%Z
  /\ migrate c walk args h rs = (t, Panicked) /\ no_begin_timeout t.
Proof.
  exists (with_delays one 50 second (300 * second)), [B"1.sql"], [], [],
    (fun n => if Nat.leb n 2 then ROk else if Nat.eqb (n mod 5) 3 then RErr true false else ROk).
  eexists. split; [reflexivity|]. split; [reflexivity|]. split; [reflexivity|]. split; [vm_compute; reflexivity|].
  intros ap Hi. vm_compute in Hi. repeat (destruct Hi as [Hi|Hi]; [discriminate|]). exact Hi.
Qed.

(** C23: a single statement *)
Lemma no_undo : exists c walk args h rs t o a f x l ap b u y,
  migrate c walk args h rs = (t, o) /\ t = a ++ (OpExec f x, RErr l ap) :: b /\ l = false
  /\ ~ in_transaction (c_dialect c) f /\ undo_script f u /\ c_dir c u = Some y
  /\ forall u' y' r, ~ In (OpUndo u' y', r) t.
Proof.
  exists (demo Postgres [(B"1.txoff.sql", B"CREATE INDEX CONCURRENTLY i ON t (a);"); (B"1.undo.sql", B"DROP INDEX i;")]),
    [B"1.txoff.sql"], [], [], (replies [ROk; ROk; RErr false true]).
  eexists _, _, [(OpEnsure, ROk); (OpQuery, ROk)], (B"1.txoff.sql"), _, false, true, _, (B"1.undo.sql"), (B"DROP INDEX i;").
  split; [vm_compute; reflexivity|]. split; [reflexivity|]. split; [reflexivity|].
  split; [|split; [exact (undo_txoff (B"1"))|split; [reflexivity|]]].
  - intros H. apply (proj2 (is_tx_single Postgres (fresh (B"1.txoff.sql")))) in H. vm_compute in H. discriminate.
  - intros u' y' r Hi. cbn in Hi. repeat (destruct Hi as [Hi|Hi]; [discriminate|]). exact Hi.
Qed.

(** C29: a commit that took effect although the client saw an error *)
Lemma applied_twice_after_commit_error : exists c walk args s rs t o rs2 t2,
  migrate c walk args (hist s) rs = (t, o) /\ full_read t
  /\ migrate c walk args (hist (after s t)) rs2 = (t2, Done) /\ full_read t2
  /\ exists f x, data (after (after s t) t2) = data s ++ [Applied f x; Applied f x].
Proof.
  exists one, [B"1.sql"], [], empty, (replies [ROk; ROk; ROk; ROk; ROk; RErr false true]).
  eexists _, _, (replies []), _. split; [vm_compute; reflexivity|]. split.
  { intros n Hi. cbn in Hi. repeat (destruct Hi as [Hi|Hi]; [discriminate|]). exact Hi. }
  split; [vm_compute; reflexivity|]. split.
  { intros n Hi. cbn in Hi. repeat (destruct Hi as [Hi|Hi]; [discriminate|]). exact Hi. }
  exists (B"1.sql"), (B"SELECT 1"). vm_compute. reflexivity.
Qed.

(** C30: both processes read the history before either has written it *)
Definition tx_of (b : bool) (ops : list op) : joint := map (fun o => (b, (o, ROk))) ops.
Definition script_tx : list op :=
  [OpBegin; OpExec (B"1.sql") (B"SELECT 1");
   OpUpsert [{| r_name := B"1.sql"; r_checksum := Some []; r_started := true; r_success := true |}]; OpCommit].
Definition race : joint :=
  tx_of true [OpEnsure; OpQuery] ++ tx_of false [OpEnsure; OpQuery] ++ tx_of true script_tx ++ tx_of false script_tx.
Lemma applied_twice_in_race : exists c walk args s m,
  two_runs c walk args s m /\ all_ok (map snd m)
  /\ exists f x, data (after s (map snd m)) = data s ++ [Applied f x; Applied f x].
Proof.
  exists one, [B"1.sql"], [], empty, race. split; [split|].
  - unfold race, tx_of, script_tx. cbn. repeat (apply isolated_cons; [auto|]; cbn). apply isolated_nil.
  - intros [|].
    + exists (tx_of true [OpEnsure]), ROk. eexists _, (replies []), _. split; [reflexivity|]. vm_compute. reflexivity.
    + exists (tx_of true [OpEnsure; OpQuery] ++ tx_of false [OpEnsure]), ROk. eexists _, (replies []), _.
      split; [reflexivity|]. vm_compute. reflexivity.
  - split; [apply all_ok_compute; vm_compute; reflexivity|]. exists (B"1.sql"), (B"SELECT 1"). vm_compute. reflexivity.
Qed.

(** C53: the history write of a script outside a transaction times out *)
Lemma executed_twice : exists c walk args s rs t f x,
  clean c walk args [f] /\ migrate c walk args (hist s) rs = (t, Done)
  /\ data (after s t) = data s ++ [Applied f x; Applied f x].
Proof.
  exists (demo Postgres [(B"1.txoff.sql", B"INSERT INTO t VALUES (1);")]), [B"1.txoff.sql"], [], empty,
    (replies [ROk; ROk; ROk; RErr true false]). eexists _, (B"1.txoff.sql"), _.
  split; [|split; [vm_compute; reflexivity|vm_compute; reflexivity]].
  constructor.
  - reflexivity.
  - repeat constructor. intros [].
  - constructor; [|constructor]. apply plain_compute. reflexivity.
  - constructor; [|constructor]. vm_compute. discriminate.
  - intros x. discriminate.
Qed.

(** C54: the success row was written although the client saw an error, the undo script
    ran, and the connection is lost before the failure is recorded *)
Lemma success_although_undone : exists c walk args s rs t o f row x y,
  migrate c walk args (hist s) rs = (t, o)
  /\ data (after s t) = data s ++ [Applied f x; y] /\ (exists u z, undo_script f u /\ y = Undone u z)
  /\ In row (hist (after s t)) /\ r_name row = f /\ r_success row = true.
Proof.
  exists (demo Postgres [(B"1.txoff.sql", B"VACUUM; VACUUM;"); (B"1.undo.sql", B"SELECT 1;")]), [B"1.txoff.sql"], [], empty,
    (replies [ROk; ROk; ROk; RErr false true; ROk; RErr false false]).
  eexists _, _, (B"1.txoff.sql"), _, _, _. split; [vm_compute; reflexivity|]. split; [vm_compute; reflexivity|].
  split; [exists (B"1.undo.sql"), (B"SELECT 1;"); split; [exact (undo_txoff (B"1"))|reflexivity]|].
  split; [vm_compute; left; reflexivity|]. split; reflexivity.
Qed.

(** ** A concrete directory for the examples *)
Definition shop_files : list bytes := map B ["1.sql"; "2.sql"; "3.txoff.sql"; "4.tx.sql"; "repeatable/v.sql"]%string.
Definition shop : config :=
  demo Postgres [(B"1.sql", B"CREATE TABLE a ();"); (B"2.sql", B"CREATE TABLE b ();");
                 (B"3.txoff.sql", B"VACUUM; VACUUM;"); (B"3.undo.sql", B"SELECT 1;");
                 (B"4.tx.sql", B"DROP TABLE a;"); (B"repeatable/v.sql", B"CREATE VIEW v AS SELECT 1;")].
Lemma shop_clean : clean shop shop_files [] shop_files.
Proof.
  constructor.
  - reflexivity.
  - repeat constructor; cbn; intuition discriminate.
  - intros _. repeat (constructor; [apply plain_compute; reflexivity|]). constructor.
  - repeat (constructor; [vm_compute; discriminate|]). constructor.
  - intros x. discriminate.
Qed.
Lemma shop_pending : pending shop [] shop_files shop_files.
Proof.
  unfold shop_files. cbn [map].
  repeat (apply pending_due; [right; intros (r & [] & _)|]). apply pending_nil.
Qed.
Lemma sharing d f : sharesb d f = true -> shares d f. Proof. apply sharesb_iff. Qed.
Lemma not_sharing d f : sharesb d f = false -> ~ shares d f.
Proof. intros H Hs. apply sharesb_iff in Hs. congruence. Qed.
Lemma shop_grouping : grouping Postgres shop_files
  [map B ["1.sql"; "2.sql"]%string; [B"3.txoff.sql"]; [B"4.tx.sql"]; [B"repeatable/v.sql"]].
Proof.
  unfold shop_files. cbn [map].
  apply grouping_join; [apply sharing; reflexivity|apply sharing; reflexivity|].
  apply grouping_last; [apply sharing; reflexivity| |apply not_sharing; reflexivity].
  apply grouping_alone; [apply not_sharing; reflexivity|].
  apply grouping_alone; [apply not_sharing; reflexivity|].
  apply grouping_last; [apply sharing; reflexivity|constructor|exact I].
Qed.
Lemma in_tx_compute d f : is_tx d [fresh f] = true -> in_transaction d f.
Proof. apply (proj1 (is_tx_single d (fresh f))). Qed.
Lemma not_in_tx_compute d f : is_tx d [fresh f] = false -> ~ in_transaction d f.
Proof. intros H Hi. apply (proj2 (is_tx_single d (fresh f))) in Hi. congruence. Qed.

(** Only selected scripts are executed (C14). *)
Lemma selected_in c walk args files f : selected_files c walk args = Some files -> In f files ->
  is_script f /\ In f (match args with [] => walk | _ => args end).
Proof.
  intros H Hi. split; [eapply selected_scripts; eassumption|].
  assert (Hs : forall l, In f (sort_and_filter l) -> In f l).
  { intros l. rewrite sort_and_filter_spec, in_app_iff, !filter_In. tauto. }
  unfold selected_files in H. destruct args as [|a args].
  - injection H as <-. apply Hs. exact Hi.
  - destruct (forallb _ _); [|discriminate]. injection H as <-. apply Hs. exact Hi.
Qed.
Lemma executes_selected c walk args h rs t o f x r :
  migrate c walk args h rs = (t, o) -> In (OpExec f x, r) t ->
  is_script f /\ In f (match args with [] => walk | _ => args end) /\ c_dir c f = Some x.
Proof.
  intros H Hi. destruct (selected_files c walk args) as [files|] eqn:Ef.
  - destruct (migrate_groups _ _ _ _ _ _ _ H) as (t0 & t1 & gs & fin & -> & Hr & Hg & _ & _ & Hn).
    destruct (Hn _ Ef) as [Hsub _]. apply in_app_or in Hi as [Hi|Hi].
    { destruct (Hr _ Hi); discriminate. }
    apply in_split in Hi as (a & b & E).
    destruct (groups_batch _ _ _ _ _ Hg _ _ _ E) as (g & tg & og & a1 & b1 & b2 & Hin & Hb & E1 & _).
    pose proof (batch_trace_events _ _ _ _ Hb) as He. rewrite Forall_forall in He.
    specialize (He (OpExec f x, r)). destruct He as [Hf Hd]; [rewrite E1; apply in_or_app; right; left; reflexivity|].
    assert (Hff : In f files).
    { eapply subseq_In; [exact Hsub|]. apply in_map_iff in Hf as (m & <- & Hm). apply in_map. apply in_concat. eauto. }
    destruct (selected_in _ _ _ _ _ Ef Hff). auto.
  - unfold migrate in H. rewrite Ef in H. apply ret_inv in H as [-> _]. destruct Hi.
Qed.
