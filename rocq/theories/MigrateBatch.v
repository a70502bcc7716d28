(** Effects of one batch on the database. *)
From Verif Require Import GoStr GoStrFacts ModelSq SpecSql SqFacts ModelHistory HistoryFacts.
From Verif Require Import ModelMigrate SpecDb MigrateFacts MigrateTrace.
From Coq Require Import ZifyBool ZifyNat.

Definition took_effect (r : reply) : bool :=
  match r with RErr true _ | RErr _ false => false | _ => true end.

Lemma ok_took r : is_ok r = true -> took_effect r = true.
Proof. destruct r; [reflexivity|discriminate|reflexivity]. Qed.

Lemma step_commit s w r : working s = Some w ->
  step s (OpCommit, r) = {| committed := if took_effect r then w else committed s; working := None |}.
Proof.
  intros H. cbn [step]. unfold commit, abort. rewrite H.
  destruct r as [|[|] [|]|k]; reflexivity.
Qed.

Lemma step_exec_tx s w f x r : working s = Some w ->
  exists e, step s (OpExec f x, r) =
            {| committed := committed s; working := Some {| data := data w ++ e; hist := hist w |} |}
            /\ (is_ok r = true -> e = [Applied f x]).
Proof.
  intros H. cbn [step]. unfold add_effect, update, current. rewrite H.
  destruct r as [|l [|]|k].
  - exists [Applied f x]. auto.
  - exists [Partly f x]. split; [reflexivity|discriminate].
  - exists []. split; [|discriminate]. rewrite app_nil_r. destruct s as [cm wk]. cbn in H. subst. destruct w; reflexivity.
  - exists [Applied f x]. auto.
Qed.

Lemma step_upsert s rows r :
  step s (OpUpsert rows, r) = if took_effect r then write_rows rows s else s.
Proof. cbn [step]. destruct r as [|[|] [|]|k]; reflexivity. Qed.

(** No commit of [p] took effect. *)
Definition uncommitted (p : list event) : Prop := forall r, In (OpCommit, r) p -> took_effect r = false.

Lemma uncommitted_nil : uncommitted [].
Proof. intros r []. Qed.
Lemma uncommitted_app a b : uncommitted a -> uncommitted b -> uncommitted (a ++ b).
Proof. intros Ha Hb r H. apply in_app_or in H as [H|H]; [apply Ha|apply Hb]; exact H. Qed.
Lemma uncommitted_cons e t : fst e <> OpCommit -> uncommitted t -> uncommitted (e :: t).
Proof. intros He Ht r [E|H]; [|apply Ht; exact H]. subst e. cbn in He. congruence. Qed.
Lemma uncommitted_prefix p t : prefix p t -> uncommitted t -> uncommitted p.
Proof. intros [q ->] H r Hr. apply H, in_or_app. left. exact Hr. Qed.
Lemma rolled_uncommitted tx b : rolled tx b -> uncommitted b.
Proof. inversion 1; subst; intros r0 Hr; cbn in Hr; [destruct Hr as [Hr|[]]; congruence|destruct Hr]. Qed.
#[local] Hint Resolve uncommitted_nil : core.

Lemma prefix_rolled s tx b : rolled tx b -> forall p, prefix p b ->
  committed (interp s p) = committed s /\ uncommitted p.
Proof.
  intros H p Hp. split; [|eapply uncommitted_prefix; [exact Hp|eapply rolled_uncommitted; exact H]].
  revert p Hp. inversion H; subst; intros p Hp.
  - apply prefix_cons in Hp as [->|(p' & -> & Hp)]; [reflexivity|].
    apply prefix_of_nil in Hp. subst. reflexivity.
  - apply prefix_of_nil in Hp. subst. reflexivity.
Qed.

Lemma interp_rolled s b : rolled true b -> interp s b = start (committed s).
Proof. inversion 1; subst. reflexivity. Qed.

(** The last operation is a commit that took effect. *)
Definition just_committed (p : list event) : Prop :=
  exists p' r, p = p' ++ [(OpCommit, r)] /\ took_effect r = true.
Lemma just_committed_cons e p : just_committed p -> just_committed (e :: p).
Proof. intros (p' & r & -> & H). exists (e :: p'), r. split; [reflexivity|exact H]. Qed.

(** The loop inside a transaction. *)
Lemma loop_trace_tx c done q t res :
  loop_trace c true done q t res ->
  forall s w, working s = Some w ->
  working (interp s t) = None
  /\ (forall p, prefix p t ->
        (committed (interp s p) = committed s /\ uncommitted p)
        \/ (p = t /\ committed (interp s p) = batch_store c w q /\ just_committed p))
  /\ match snd (fst res) with
     | None => committed (interp s t) = batch_store c w q
     | Some l => (committed (interp s t) = committed s /\ uncommitted t)
                 \/ (l = false /\ committed (interp s t) = batch_store c w q /\ In ambiguous t)
     end.
Proof.
  induction 1 as [done r Htx Hr|done l a Htx|done Htx|done m rest b Hd Hb|done m rest x l a b Hd Hb
    |done m rest x r t res Hd Hr Hs Ht IH|done m rest x r r' t res Hd Hr Hs Hr' Ht IH|done m rest x r l a b Hd Hr Hs Hb];
    intros s w Hw; cbn [snd fst].
  - rewrite batch_store_nil. cbn [interp fold_left]. rewrite (step_commit s w r Hw), (ok_took r Hr).
    split; [reflexivity|]. split; [|reflexivity].
    intros p Hp. apply prefix_cons in Hp as [->|(p' & -> & Hp)]; [left; auto|].
    apply prefix_of_nil in Hp. subst. right. split; [reflexivity|].
    cbn [interp fold_left]. rewrite (step_commit s w r Hw), (ok_took r Hr). split; [reflexivity|].
    exists [], r. split; [reflexivity|apply ok_took; exact Hr].
  - rewrite batch_store_nil. cbn [interp fold_left]. rewrite (step_commit s w _ Hw).
    assert (Hun : took_effect (RErr l a) = false -> uncommitted [(OpCommit, RErr l a)]).
    { intros E r [[= <-]|[]]. exact E. }
    split; [reflexivity|]. split.
    + intros p Hp. apply prefix_cons in Hp as [->|(p' & -> & Hp)]; [left; auto|].
      apply prefix_of_nil in Hp. subst. cbn [interp fold_left]. rewrite (step_commit s w _ Hw). cbn [committed].
      destruct (took_effect (RErr l a)) eqn:Et; [right|left; split; [reflexivity|apply Hun; reflexivity]].
      split; [reflexivity|]. split; [reflexivity|]. exists [], (RErr l a). split; [reflexivity|exact Et].
    + cbn [committed]. destruct l, a; cbn [took_effect] in *; try (left; split; [reflexivity|apply Hun; reflexivity]).
      right. split; [reflexivity|]. split; [reflexivity|]. left. reflexivity.
  - discriminate.
  - rewrite (interp_rolled s b Hb). split; [reflexivity|].
    split; [|left; split; [reflexivity|eapply rolled_uncommitted; exact Hb]].
    intros p Hp. left. eapply prefix_rolled; eassumption.
  - change (interp s ((OpExec (m_name m) x, RErr l a) :: b)) with (interp (step s (OpExec (m_name m) x, RErr l a)) b).
    destruct (step_exec_tx s w (m_name m) x (RErr l a) Hw) as (e & He & _).
    rewrite He, (interp_rolled _ b Hb). cbn [committed]. split; [reflexivity|].
    split; [|left; split; [reflexivity|apply uncommitted_cons; [discriminate|eapply rolled_uncommitted; exact Hb]]].
    intros p Hp. apply prefix_cons in Hp as [->|(p' & -> & Hp)]; [left; auto|]. left.
    change (interp s (?e0 :: p')) with (interp (step s e0) p'). rewrite He.
    destruct (prefix_rolled {| committed := committed s; working := Some {| data := data w ++ e; hist := hist w |} |} _ _ Hb p' Hp) as [E1 E2].
    split; [exact E1|apply uncommitted_cons; [discriminate|exact E2]].
  - destruct (step_exec_tx s w (m_name m) x r Hw) as (e & He & Hok). rewrite (Hok Hr) in He.
    change (interp s ((OpExec (m_name m) x, r) :: t)) with (interp (step s (OpExec (m_name m) x, r)) t).
    rewrite He.
    assert (Hb : batch_store c {| data := data w ++ [Applied (m_name m) x]; hist := hist w |} rest = batch_store c w (m :: rest)).
    { unfold batch_store. rewrite Hs. cbn [data hist map]. unfold applied at 2, contents_of. rewrite Hd, <- app_assoc. reflexivity. }
    specialize (IH {| committed := committed s; working := Some {| data := data w ++ [Applied (m_name m) x]; hist := hist w |} |}
      _ eq_refl). rewrite Hb in IH. cbn [committed] in IH. destruct IH as (H1 & H2 & H3).
    split; [exact H1|]. split.
    + intros p Hp. apply prefix_cons in Hp as [->|(p' & -> & Hp)]; [left; auto|].
      change (interp s (?e0 :: p')) with (interp (step s e0) p'). rewrite He.
      destruct (H2 p' Hp) as [[E U]|(-> & E & J)]; [left; split; [exact E|apply uncommitted_cons; [discriminate|exact U]]|right].
      split; [reflexivity|]. split; [exact E|]. apply just_committed_cons. exact J.
    + destruct (snd (fst res)) as [l|]; [|exact H3].
      destruct H3 as [[E U]|(-> & E & Ha)]; [left; split; [exact E|apply uncommitted_cons; [discriminate|exact U]]|right].
      split; [reflexivity|]. split; [exact E|]. right. exact Ha.
  - destruct (step_exec_tx s w (m_name m) x r Hw) as (e & He & Hok). rewrite (Hok Hr) in He.
    set (s1 := step s (OpExec (m_name m) x, r)) in *.
    set (s2 := step s1 (OpUpsert [success_row m], r')).
    assert (He2 : s2 = {| committed := committed s; working := Some {| data := data w ++ [Applied (m_name m) x]; hist := upsert (success_row m) (hist w) |} |}).
    { unfold s2. rewrite step_upsert, (ok_took _ Hr'), He. reflexivity. }
    change (interp s ((OpExec (m_name m) x, r) :: (OpUpsert [success_row m], r') :: t)) with (interp s2 t).
    assert (Hb : batch_store c {| data := data w ++ [Applied (m_name m) x]; hist := upsert (success_row m) (hist w) |} rest = batch_store c w (m :: rest)).
    { unfold batch_store. rewrite Hs. cbn [data hist map]. unfold applied at 2, contents_of. rewrite Hd, <- app_assoc. reflexivity. }
    specialize (IH s2 {| data := data w ++ [Applied (m_name m) x]; hist := upsert (success_row m) (hist w) |}).
    rewrite Hb in IH. destruct IH as (H1 & H2 & H3); [rewrite He2; reflexivity|].
    assert (Hc : committed s2 = committed s) by (rewrite He2; reflexivity). rewrite Hc in *.
    assert (Huu : forall p, uncommitted p -> uncommitted ((OpExec (m_name m) x, r) :: (OpUpsert [success_row m], r') :: p)).
    { intros p U. apply uncommitted_cons; [discriminate|]. apply uncommitted_cons; [discriminate|exact U]. }
    split; [exact H1|]. split.
    + intros p Hp. apply prefix_cons in Hp as [->|(p' & -> & Hp)]; [left; auto|].
      apply prefix_cons in Hp as [->|(p'' & -> & Hp)].
      { left. split; [change (committed s1 = committed s); rewrite He; reflexivity|]. apply uncommitted_cons; [discriminate|auto]. }
      change (interp s (?e0 :: ?e1 :: p'')) with (interp (step (step s e0) e1) p''). fold s1. fold s2.
      destruct (H2 p'' Hp) as [[E U]|(-> & E & J)]; [left; split; [exact E|apply Huu; exact U]|right].
      split; [reflexivity|]. split; [exact E|]. apply just_committed_cons, just_committed_cons. exact J.
    + destruct (snd (fst res)) as [l|]; [|exact H3]. destruct H3 as [[E U]|(-> & E & Ha)]; [left; split; [exact E|apply Huu; exact U]|right].
      split; [reflexivity|]. split; [exact E|]. right. right. exact Ha.
  - destruct (step_exec_tx s w (m_name m) x r Hw) as (e & He & Hok).
    set (s1 := step s (OpExec (m_name m) x, r)) in *.
    set (s2 := step s1 (OpUpsert [success_row m], RErr l a)).
    assert (He1 : committed s1 = committed s) by (rewrite He; reflexivity).
    assert (He2 : committed s2 = committed s).
    { unfold s2. rewrite step_upsert. destruct (took_effect _); [|exact He1]. rewrite He. reflexivity. }
    assert (Huu : forall p, uncommitted p -> uncommitted ((OpExec (m_name m) x, r) :: (OpUpsert [success_row m], RErr l a) :: p)).
    { intros p U. apply uncommitted_cons; [discriminate|]. apply uncommitted_cons; [discriminate|exact U]. }
    change (interp s ((OpExec (m_name m) x, r) :: (OpUpsert [success_row m], RErr l a) :: b)) with (interp s2 b).
    rewrite (interp_rolled s2 b Hb). split; [reflexivity|].
    split; [|left; split; [exact He2|apply Huu; eapply rolled_uncommitted; exact Hb]].
    intros p Hp. left. apply prefix_cons in Hp as [->|(p' & -> & Hp)]; [auto|].
    apply prefix_cons in Hp as [->|(p'' & -> & Hp)]; [split; [exact He1|apply uncommitted_cons; [discriminate|auto]]|].
    change (interp s (?e0 :: ?e1 :: p'')) with (interp (step (step s e0) e1) p''). fold s1. fold s2.
    destruct (prefix_rolled s2 _ _ Hb p'' Hp) as [E U]. split; [rewrite E; exact He2|apply Huu; exact U].
Qed.

Lemma start_eta s st : working st = None -> committed st = s -> st = start s.
Proof. destruct st as [cm wk]. cbn. intros -> ->. reflexivity. Qed.

Lemma run_trace_tx c q t res :
  is_tx (c_dialect c) q = true -> run_trace c q t res ->
  forall s,
  working (interp (start s) t) = None
  /\ (forall p, prefix p t ->
        (committed (interp (start s) p) = s /\ uncommitted p)
        \/ (p = t /\ committed (interp (start s) p) = batch_store c s q /\ just_committed p))
  /\ match snd (fst res) with
     | None => committed (interp (start s) t) = batch_store c s q
     | Some l => (committed (interp (start s) t) = s /\ uncommitted t)
                 \/ (l = false /\ committed (interp (start s) t) = batch_store c s q /\ In ambiguous t)
     end.
Proof.
  intros Htx Ht s. inversion Ht as [l a _|r t' res' _ Hr Hl|t' res' Hf _]; subst; [| |congruence].
  - cbn [snd fst].
    assert (Hun : uncommitted [(OpBegin, RErr l a)]) by (apply uncommitted_cons; [discriminate|auto]).
    split; [reflexivity|]. split; [|left; split; [reflexivity|exact Hun]].
    intros p Hp. left. apply prefix_cons in Hp as [->|(p' & -> & Hp)]; [auto|].
    apply prefix_of_nil in Hp. subst. split; [reflexivity|exact Hun].
  - pose proof (loop_trace_tx c [] q t' res Hl {| committed := s; working := Some s |} s eq_refl) as (H1 & H2 & H3).
    cbn [committed] in *.
    assert (Hs : step (start s) (OpBegin, r) = {| committed := s; working := Some s |}) by (cbn [step]; rewrite Hr; reflexivity).
    change (interp (start s) ((OpBegin, r) :: t')) with (interp (step (start s) (OpBegin, r)) t'). rewrite Hs.
    split; [exact H1|]. split.
    + intros p Hp. apply prefix_cons in Hp as [->|(p' & -> & Hp)]; [left; auto|].
      change (interp (start s) (?e0 :: p')) with (interp (step (start s) e0) p'). rewrite Hs.
      destruct (H2 p' Hp) as [[E U]|(-> & E & J)]; [left; split; [exact E|apply uncommitted_cons; [discriminate|exact U]]|right].
      split; [reflexivity|]. split; [exact E|]. apply just_committed_cons. exact J.
    + destruct (snd (fst res)) as [l|]; [|exact H3].
      destruct H3 as [[E U]|(-> & E & Ha)]; [left; split; [exact E|apply uncommitted_cons; [discriminate|exact U]]|right].
      split; [reflexivity|]. split; [exact E|]. right. exact Ha.
Qed.

(** Rows written after a failure of the batch. *)
Definition fail_rows (q : list migration) (rows : list row) : Prop :=
  exists q' n, map key q' = map key q /\ rows = map failure_row (firstn n q').
Definition with_rows (rows : list row) (s : store) : store :=
  {| data := data s; hist := upsert_all rows (hist s) |}.

Lemma fail_rows_nil q : fail_rows q [].
Proof. exists q, 0. split; reflexivity. Qed.
Lemma with_rows_nil s : with_rows [] s = s.
Proof. destruct s; reflexivity. Qed.
Lemma fail_rows_key q q' rows : map key q = map key q' -> fail_rows q rows -> fail_rows q' rows.
Proof. intros E (q0 & n & E0 & H). exists q0, n. split; [congruence|exact H]. Qed.

Lemma went_on_app a p : went_on p -> went_on (a ++ p).
Proof. intros (p1 & e & p2 & ->). exists (a ++ p1), e, p2. rewrite <- app_assoc. reflexivity. Qed.
Lemma went_on_snoc p e : In ambiguous p -> went_on (p ++ [e]).
Proof.
  intros H. apply in_split in H as (p1 & p2 & ->). destruct p2 as [|e' p2].
  - exists p1, e, []. rewrite <- app_assoc. reflexivity.
  - exists p1, e', (p2 ++ [e]). rewrite <- app_assoc. reflexivity.
Qed.

(** The committed state at any point of a transactional batch started in [s]. *)
Definition tx_point (c : config) (s : store) (q : list migration) (p : list event) (x : store) : Prop :=
  (uncommitted p /\ exists rows, fail_rows q rows /\ x = with_rows rows s)
  \/ (x = batch_store c s q /\ just_committed p)
  \/ (went_on p /\ exists rows, fail_rows q rows /\ x = with_rows rows (batch_store c s q)).

Lemma tx_point_key c s q q' p x : map key q = map key q' -> tx_point c s q p x -> tx_point c s q' p x.
Proof.
  intros E [(U & rows & H & ->)|[[-> H]|(H & rows & H' & ->)]].
  - left. split; [exact U|]. exists rows. split; [eapply fail_rows_key; eassumption|reflexivity].
  - right. left. split; [apply key_batch; exact E|exact H].
  - right. right. split; [exact H|]. exists rows. split; [eapply fail_rows_key; eassumption|].
    rewrite (key_batch c s q q' E). reflexivity.
Qed.

Lemma tx_point_app c s q a p x : uncommitted a -> tx_point c s q p x -> tx_point c s q (a ++ p) x.
Proof.
  intros Ua [(U & H)|[(-> & p' & r & -> & Hr)|(Ha & H)]].
  - left. split; [apply uncommitted_app; assumption|exact H].
  - right. left. split; [reflexivity|]. exists (a ++ p'), r. rewrite app_assoc. split; [reflexivity|exact Hr].
  - right. right. split; [apply went_on_app; exact Ha|exact H].
Qed.

Lemma tx_point_same c s q p : uncommitted p -> tx_point c s q p s.
Proof. intros U. left. split; [exact U|]. exists []. split; [apply fail_rows_nil|rewrite with_rows_nil; reflexivity]. Qed.

Lemma interp_upsert_start s rows r :
  interp (start s) [(OpUpsert rows, r)] = start (if took_effect r then with_rows rows s else s).
Proof. cbn [interp fold_left]. rewrite step_upsert. destruct (took_effect r); reflexivity. Qed.

Lemma prefix_snoc {A} (p a : list A) e : prefix p (a ++ [e]) -> prefix p a \/ p = a ++ [e].
Proof.
  intros H. apply prefix_app in H as [H|(p' & -> & H)]; [left; exact H|].
  apply prefix_cons in H as [->|(p'' & -> & H)].
  - left. rewrite app_nil_r. apply prefix_refl.
  - apply prefix_of_nil in H. subst. right. reflexivity.
Qed.

Definition neutral (e : event) : bool :=
  match fst e with OpRand _ | OpSleep _ | OpEnsure | OpQuery => true | _ => false end.
Lemma step_neutral s e : neutral e = true -> step s e = s.
Proof. destruct e as [[] r]; try discriminate; reflexivity. Qed.

Lemma retry_trace_tx c k q t o :
  retry_trace c true k q t o -> is_tx (c_dialect c) q = true ->
  forall s,
  working (interp (start s) t) = None
  /\ (forall p, prefix p t -> tx_point c s q p (committed (interp (start s) p)))
  /\ (o = Done -> committed (interp (start s) t) = batch_store c s q)
  /\ (o <> Done -> In ambiguous t \/
      exists rows, fail_rows q rows /\ committed (interp (start s) t) = with_rows rows s).
Proof.
  assert (Hpt : forall c q t res s, is_tx (c_dialect c) q = true -> run_trace c q t res ->
            forall p, prefix p t -> tx_point c s q p (committed (interp (start s) p))).
  { intros c0 q0 t0 res0 s Htx Hr p Hp. destruct (run_trace_tx _ _ _ _ Htx Hr s) as (_ & H2 & _).
    destruct (H2 p Hp) as [[-> U]|(-> & -> & H)]; [apply tx_point_same; exact U|]. right. left. split; [reflexivity|exact H]. }
  induction 1 as [k q t n q' Hr|k q t n q' Hr _ _ _|k q t n q' Hr _ _ _ _|k q t n q' r Hr Hre Hd Hk Hn Hneg
                  |k q t n q' r r' t' o Hr Hre Hd Hk Hn Hneg Ht IH|k q t n l q' u Hr Hl Hu Hq|k q t n l q' u r Hr Hl Hu Hn Hs];
    intros Htx s; pose proof (run_trace_tx _ _ _ _ Htx Hr s) as (H1 & _ & H3); cbn [fst snd] in H3;
    pose proof (run_trace_shape _ _ _ _ _ _ Hr) as (Hk' & _).
  - split; [exact H1|]. split; [eapply Hpt; eassumption|]. split; [intros _; exact H3|]. congruence.
  - destruct H3 as [[H3 U]|(H3 & _)]; [|discriminate].
    split; [exact H1|]. split; [eapply Hpt; eassumption|].
    split; [destruct (n <? 0)%Z; discriminate|]. intros _. right. exists [].
    split; [apply fail_rows_nil|rewrite with_rows_nil; exact H3].
  - destruct H3 as [[H3 U]|(H3 & _)]; [|discriminate].
    split; [exact H1|]. split; [eapply Hpt; eassumption|].
    split; [discriminate|]. intros _. right. exists [].
    split; [apply fail_rows_nil|rewrite with_rows_nil; exact H3].
  - destruct H3 as [[H3 U]|(H3 & _)]; [|discriminate].
    assert (He : interp (start s) (t ++ [(OpRand (draw_range c (k + 1)), r)]) = interp (start s) t)
      by (rewrite interp_app; reflexivity).
    rewrite He. split; [exact H1|]. split.
    + intros p Hp. apply prefix_snoc in Hp as [Hp| ->]; [eapply Hpt; eassumption|].
      replace (interp (start s) _) with (interp (start s) t) by (symmetry; exact He).
      rewrite H3. apply tx_point_same. apply uncommitted_app; [exact U|]. apply uncommitted_cons; [discriminate|auto].
    + split; [discriminate|]. intros _. right. exists [].
      split; [apply fail_rows_nil|rewrite with_rows_nil; exact H3].
  - destruct H3 as [[H3 U]|(H3 & _)]; [|discriminate].
    assert (Hst : interp (start s) t = start s) by (apply start_eta; assumption).
    assert (Htx' : is_tx (c_dialect c) q' = true) by (rewrite (key_is_tx _ _ _ Hk'); exact Htx).
    specialize (IH Htx' s). destruct IH as (I1 & I2 & I3 & I4).
    set (e1 := (OpRand (draw_range c (k + 1)), r)). set (e2 := (OpSleep (delay_of c (drawn (draw_range c (k + 1)) r)), r')).
    assert (U1 : uncommitted (t ++ [e1])) by (apply uncommitted_app; [exact U|apply uncommitted_cons; [discriminate|auto]]).
    assert (U2 : uncommitted (t ++ [e1; e2])).
    { apply uncommitted_app; [exact U|]. apply uncommitted_cons; [discriminate|]. apply uncommitted_cons; [discriminate|auto]. }
    assert (He : forall p, interp (start s) (t ++ e1 :: e2 :: p) = interp (start s) p)
      by (intros p; rewrite interp_app, Hst; reflexivity).
    rewrite He. split; [exact I1|]. split.
    + intros p Hp. apply prefix_app in Hp as [Hp|(p' & -> & Hp)]; [eapply Hpt; eassumption|].
      apply prefix_cons in Hp as [->|(p'' & -> & Hp)].
      { rewrite app_nil_r, H3. apply tx_point_same. exact U. }
      apply prefix_cons in Hp as [->|(p3 & -> & Hp)].
      { rewrite interp_app, Hst. cbn. apply tx_point_same. exact U1. }
      rewrite He. change (t ++ e1 :: e2 :: p3) with (t ++ [e1; e2] ++ p3). rewrite app_assoc.
      apply tx_point_app; [exact U2|]. eapply tx_point_key; [exact Hk'|]. apply I2. exact Hp.
    + split.
      * intros Ho. rewrite (I3 Ho). apply key_batch. exact Hk'.
      * intros Ho. destruct (I4 Ho) as [Ha|(rows & Hf & Hrows)].
        -- left. apply in_or_app. right. right. right. exact Ha.
        -- right. exists rows. split; [eapply fail_rows_key; eassumption|exact Hrows].
  - assert (u = []) by (inversion Hu; subst; congruence). subst u. rewrite app_nil_r.
    split; [exact H1|]. split; [eapply Hpt; eassumption|]. split; [discriminate|]. intros _.
    destruct H3 as [[H3 U]|(_ & H3 & Ha)]; [right|left; exact Ha].
    exists []. split; [apply fail_rows_nil|rewrite with_rows_nil; exact H3].
  - assert (u = []) by (inversion Hu; subst; congruence). subst u. cbn [app].
    set (rows := map failure_row (firstn (S (Z.to_nat n)) q')).
    assert (Hf : fail_rows q rows) by (exists q', (S (Z.to_nat n)); split; [exact Hk'|reflexivity]).
    assert (Hrw : forall x, exists rows', fail_rows q rows' /\
              (if took_effect r then with_rows rows x else x) = with_rows rows' x).
    { intros x. destruct (took_effect r); [exists rows; auto|exists []; split; [apply fail_rows_nil|rewrite with_rows_nil; reflexivity]]. }
    assert (He : forall x, committed (interp (start s) t) = x ->
       interp (start s) (t ++ [(OpUpsert rows, r)]) = start (if took_effect r then with_rows rows x else x)).
    { intros x Hx. rewrite interp_app, (start_eta _ _ H1 Hx). apply interp_upsert_start. }
    destruct H3 as [[H3 U]|(_ & H3 & Ha)].
    + rewrite (He _ H3). split; [reflexivity|]. split.
      * intros p Hp. apply prefix_snoc in Hp as [Hp| ->]; [eapply Hpt; eassumption|].
        unfold event in *. rewrite (He _ H3). left.
        split; [apply uncommitted_app; [exact U|apply uncommitted_cons; [discriminate|auto]]|]. apply Hrw.
      * split; [discriminate|]. intros _. right. apply Hrw.
    + rewrite (He _ H3). split; [reflexivity|]. split.
      * intros p Hp. apply prefix_snoc in Hp as [Hp| ->]; [eapply Hpt; eassumption|].
        unfold event in *. rewrite (He _ H3). right. right. split; [apply went_on_snoc; exact Ha|]. apply Hrw.
      * split; [discriminate|]. intros _. left. apply in_or_app. left. exact Ha.
Qed.

(** ** Batches outside a transaction: one script *)
Definition about (c : config) (f : bytes) (e : effect) : Prop :=
  match e with
  | Applied g x => g = f /\ c_dir c f = Some x
  | Partly g x => g = f /\ c_dir c f = Some x
  | Undone u x => u = undo_name f /\ c_dir c u = Some x
  end.

Definition no_tx_event (e : event) : Prop :=
  match fst e with OpBegin | OpCommit | OpRollback => False | _ => True end.

Lemma step_no_tx s e : no_tx_event e -> exists x, step (start s) e = start x.
Proof.
  destruct e as [[] r]; cbn [no_tx_event fst]; intros H; try contradiction; cbn [step];
    try (eexists; reflexivity);
    destruct r as [|[|] [|]|k]; eexists; reflexivity.
Qed.

Lemma loop_trace_plain c done q t res :
  loop_trace c false done q t res -> Forall no_tx_event t.
Proof.
  assert (Hb : forall b, rolled false b -> b = []) by (inversion 1; reflexivity).
  induction 1; try discriminate; try (rewrite (Hb b) by assumption); repeat constructor; try assumption.
Qed.

Lemma retry_trace_plain c re k q t o :
  retry_trace c re k q t o -> is_tx (c_dialect c) q = false -> Forall no_tx_event t.
Proof.
  assert (Hp : forall q t res, is_tx (c_dialect c) q = false -> run_trace c q t res -> Forall no_tx_event t).
  { intros q0 t0 res0 Hx Hr. inversion Hr; subst; try congruence. eapply loop_trace_plain. eassumption. }
  assert (Hu : forall q u, undone c re q u -> Forall no_tx_event u) by (inversion 1; subst; repeat constructor).
  induction 1 as [k q t n q' Hr|k q t n q' Hr _ _ _|k q t n q' Hr _ _ _ _|k q t n q' r Hr Hre Hd Hk Hn Hneg
                  |k q t n q' r r' t' o Hr Hre Hd Hk Hn Hneg Ht IH|k q t n l q' u Hr Hl Hun Hq|k q t n l q' u r Hr Hl Hun Hn Hs];
    intros Htx; pose proof (Hp _ _ _ Htx Hr) as Ha; pose proof (run_trace_shape _ _ _ _ _ _ Hr) as (Hk' & _).
  - exact Ha.
  - exact Ha.
  - exact Ha.
  - apply Forall_app. split; [exact Ha|repeat constructor].
  - apply Forall_app. split; [exact Ha|]. constructor; [exact I|]. constructor; [exact I|].
    apply IH. rewrite (key_is_tx _ _ _ Hk'). exact Htx.
  - apply Forall_app. split; [exact Ha|eapply Hu; exact Hun].
  - apply Forall_app. split; [exact Ha|]. apply Forall_app. split; [eapply Hu; exact Hun|repeat constructor].
Qed.

Lemma batch_trace_plain c q t o :
  batch_trace c q t o -> is_tx (c_dialect c) q = false -> Forall no_tx_event t.
Proof. inversion 1; subst; intros Hx; try congruence; [constructor|eapply retry_trace_plain; eassumption]. Qed.

Lemma interp_plain t : forall s, Forall no_tx_event t ->
  exists x, interp (start s) t = start x.
Proof.
  induction t as [|e t IH]; intros s Hall; [exists s; reflexivity|].
  inversion Hall; subst. destruct (step_no_tx s e) as (x & Hx); [assumption|].
  change (interp (start s) (e :: t)) with (interp (step (start s) e) t). rewrite Hx. apply IH. assumption.
Qed.

(** Effects of events that concern only the script [f]. *)
Lemma plain_effects c f t : forall s, Forall no_tx_event t -> Forall (batch_event c [f]) t ->
  exists e, data (committed (interp (start s) t)) = data s ++ e /\ Forall (about c f) e.
Proof.
  induction t as [|ev t IH]; intros s Hn Hb; [exists []; rewrite app_nil_r; split; [reflexivity|constructor]|].
  inversion Hn; inversion Hb; subst. destruct (step_no_tx s ev) as (x & Hx); [assumption|].
  change (interp (start s) (ev :: t)) with (interp (step (start s) ev) t). rewrite Hx.
  destruct (IH x) as (e & He & Ha); [assumption|assumption|].
  assert (Hd : exists e1, data x = data s ++ e1 /\ Forall (about c f) e1).
  { assert (Hx' : data (committed (step (start s) ev)) = data x) by (rewrite Hx; reflexivity).
    rewrite <- Hx'. clear Hx Hx' IH He Ha. destruct ev as [[] r]; cbn [step fst batch_event no_tx_event] in *;
      try contradiction; try (exists []; rewrite app_nil_r; split; [reflexivity|constructor]).
    - destruct H5 as [[<-|[]] Hx]. destruct r as [|l [|]|n]; cbn.
      + eexists. split; [reflexivity|]. repeat constructor. exact Hx.
      + eexists. split; [reflexivity|]. repeat constructor. exact Hx.
      + exists []. rewrite app_nil_r. split; [reflexivity|constructor].
      + eexists. split; [reflexivity|]. repeat constructor. exact Hx.
    - exists []. rewrite app_nil_r. split; [|constructor]. destruct r as [|[|] [|]|n]; reflexivity.
    - destruct H5 as (f' & [<-|[]] & -> & Hx). destruct r as [|l [|]|n]; cbn.
      + eexists. split; [reflexivity|]. repeat constructor. exact Hx.
      + eexists. split; [reflexivity|]. repeat constructor. exact Hx.
      + exists []. rewrite app_nil_r. split; [reflexivity|constructor].
      + eexists. split; [reflexivity|]. repeat constructor. exact Hx. }
  destruct Hd as (e1 & He1 & Ha1). exists (e1 ++ e). rewrite He, He1, app_assoc.
  split; [reflexivity|]. apply Forall_app. split; assumption.
Qed.
