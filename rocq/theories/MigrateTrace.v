(** The traces of one batch as inductive relations, and what follows from them. *)
From Verif Require Import GoStr GoStrFacts ModelSq SpecSql SqFacts ModelHistory HistoryFacts.
From Verif Require Import ModelMigrate SpecDb MigrateFacts.
From Coq Require Import ZifyBool ZifyNat.

Inductive rolled : bool -> list event -> Prop :=
| rolled_tx r : rolled true [(OpRollback, r)]
| rolled_no : rolled false [].

(** Traces of the loop of [run]. *)
Inductive loop_trace (c : config) (tx : bool) :
  list migration -> list migration -> list event -> run_result -> Prop :=
| lt_commit done r : tx = true -> is_ok r = true ->
    loop_trace c tx done [] [(OpCommit, r)] ((Z.of_nat (List.length done) - 1)%Z, None, done)
| lt_commit_fails done l a : tx = true ->
    loop_trace c tx done [] [(OpCommit, RErr l a)]
      ((Z.of_nat (List.length done) - 1)%Z, Some l, done)
| lt_end done : tx = false ->
    loop_trace c tx done [] [] ((Z.of_nat (List.length done) - 1)%Z, None, done)
| lt_unreadable done m rest b : c_dir c (m_name m) = None -> rolled tx b ->
    loop_trace c tx done (m :: rest) b
      (Z.of_nat (List.length done), Some false, done ++ m :: rest)
| lt_fails done m rest x l a b : c_dir c (m_name m) = Some x -> rolled tx b ->
    loop_trace c tx done (m :: rest) ((OpExec (m_name m) x, RErr l a) :: b)
      (Z.of_nat (List.length done), Some l, done ++ set_started m :: rest)
| lt_skip done m rest x r t res : c_dir c (m_name m) = Some x -> is_ok r = true ->
    c_skip_history c = true ->
    loop_trace c tx (done ++ [set_started m]) rest t res ->
    loop_trace c tx done (m :: rest) ((OpExec (m_name m) x, r) :: t) res
| lt_next done m rest x r r' t res : c_dir c (m_name m) = Some x -> is_ok r = true ->
    c_skip_history c = false -> is_ok r' = true ->
    loop_trace c tx (done ++ [set_started m]) rest t res ->
    loop_trace c tx done (m :: rest)
      ((OpExec (m_name m) x, r) :: (OpUpsert [success_row m], r') :: t) res
| lt_unrecorded done m rest x r l a b : c_dir c (m_name m) = Some x -> is_ok r = true ->
    c_skip_history c = false -> rolled tx b ->
    loop_trace c tx done (m :: rest)
      ((OpExec (m_name m) x, r) :: (OpUpsert [success_row m], RErr l a) :: b)
      (Z.of_nat (List.length done), Some l, done ++ set_started m :: rest).

Lemma rollback_rolled {A} tx (k : A) rs t res :
  (do _ <- rollback tx ;; ret k) rs = (t, res) -> rolled tx t /\ res = k.
Proof.
  intros H. apply bind_inv in H as (t1 & u & t2 & H1 & H2 & ->).
  apply ret_inv in H2 as [-> ->]. rewrite app_nil_r.
  destruct tx; cbn [rollback] in H1.
  - apply call_bind_inv in H1 as (r & t3 & H1 & -> & _). apply ret_inv in H1 as [-> _].
    split; [constructor|reflexivity].
  - apply ret_inv in H1 as [-> _]. split; [constructor|reflexivity].
Qed.

Lemma run_loop_trace c tx queue : forall done rs t res,
  run_loop c tx done queue rs = (t, res) -> loop_trace c tx done queue t res.
Proof.
  induction queue as [|m rest IH]; intros done rs t res H; cbn [run_loop] in H.
  - destruct tx.
    + apply call_bind_inv in H as (r & t2 & H & -> & _). apply ret_inv in H as [-> ->].
      destruct r as [|l a|k]; cbn [is_ok]; [apply lt_commit|apply lt_commit_fails|apply lt_commit]; reflexivity.
    + apply ret_inv in H as [-> ->]. apply lt_end. reflexivity.
  - destruct (c_dir c (m_name m)) as [x|] eqn:Ed.
    + apply call_bind_inv in H as (r & t2 & H & -> & _). destruct (is_ok r) eqn:Er.
      * destruct (c_skip_history c) eqn:Es.
        -- apply lt_skip; try assumption. eapply IH. exact H.
        -- apply call_bind_inv in H as (r' & t3 & H & -> & _).
           change (success_row (set_started m)) with (success_row m).
           destruct (is_ok r') eqn:Er'.
           ++ apply lt_next; try assumption. eapply IH. exact H.
           ++ apply rollback_rolled in H as [H ->].
              destruct r' as [|l a|k]; try discriminate. apply lt_unrecorded; assumption.
      * apply rollback_rolled in H as [H ->].
        destruct r as [|l a|k]; try discriminate. apply lt_fails; assumption.
    + apply rollback_rolled in H as [H ->]. apply lt_unreadable; assumption.
Qed.

(** Traces of [run]. *)
Inductive run_trace (c : config) (q : list migration) : list event -> run_result -> Prop :=
| rt_begin_fails l a : is_tx (c_dialect c) q = true ->
    run_trace c q [(OpBegin, RErr l a)] ((-1)%Z, Some l, q)
| rt_tx r t res : is_tx (c_dialect c) q = true -> is_ok r = true ->
    loop_trace c true [] q t res -> run_trace c q ((OpBegin, r) :: t) res
| rt_plain t res : is_tx (c_dialect c) q = false ->
    loop_trace c false [] q t res -> run_trace c q t res.

Lemma run_run_trace c q rs t res : run c q rs = (t, res) -> run_trace c q t res.
Proof.
  unfold run. intros H. destruct (is_tx (c_dialect c) q) eqn:E.
  - apply call_bind_inv in H as (r & t2 & H & -> & _). destruct (is_ok r) eqn:Er.
    + apply rt_tx; try assumption. eapply run_loop_trace. exact H.
    + apply ret_inv in H as [-> ->]. destruct r as [|l a|k]; try discriminate.
      apply rt_begin_fails. exact E.
  - apply rt_plain; [exact E|]. eapply run_loop_trace. exact H.
Qed.

Inductive undone (c : config) (retryable : bool) (q : list migration) : list event -> Prop :=
| undone_retryable : retryable = true -> undone c retryable q []
| undone_empty : q = [] -> undone c retryable q []
| undone_missing m q' : retryable = false -> q = m :: q' -> c_dir c (undo_name (m_name m)) = None ->
    undone c retryable q []
| undone_run m q' x r : retryable = false -> q = m :: q' -> c_dir c (undo_name (m_name m)) = Some x ->
    undone c retryable q [(OpUndo (undo_name (m_name m)) x, r)].

(** Traces of the retry loop; [k] is the number of attempts made before. *)
Inductive retry_trace (c : config) (retryable : bool) :
  Z -> list migration -> list event -> outcome -> Prop :=
| re_done k q t n q' : run_trace c q t (n, None, q') -> retry_trace c retryable k q t Done
| re_give_up k q t n q' : run_trace c q t (n, Some true, q') ->
    retryable = true -> c_detects_lock c = true -> (c_max_attempts c <= k + 1)%Z ->
    retry_trace c retryable k q t (if (n <? 0)%Z then Panicked else Failed)
| re_panic_draw k q t n q' : run_trace c q t (n, Some true, q') ->
    retryable = true -> c_detects_lock c = true -> (k + 1 < c_max_attempts c)%Z ->
    (draw_range c (k + 1) <= 0)%Z ->
    retry_trace c retryable k q t Panicked
| re_panic_index k q t n q' r : run_trace c q t (n, Some true, q') ->
    retryable = true -> c_detects_lock c = true -> (k + 1 < c_max_attempts c)%Z ->
    (0 < draw_range c (k + 1))%Z -> (n < 0)%Z ->
    retry_trace c retryable k q (t ++ [(OpRand (draw_range c (k + 1)), r)]) Panicked
| re_again k q t n q' r r' t' o : run_trace c q t (n, Some true, q') ->
    retryable = true -> c_detects_lock c = true -> (k + 1 < c_max_attempts c)%Z ->
    (0 < draw_range c (k + 1))%Z -> (0 <= n)%Z ->
    retry_trace c retryable (k + 1) q' t' o ->
    retry_trace c retryable k q
      (t ++ (OpRand (draw_range c (k + 1)), r)
         :: (OpSleep (delay_of c (drawn (draw_range c (k + 1)) r)), r') :: t') o
| re_fail_quiet k q t n l q' u : run_trace c q t (n, Some l, q') ->
    retryable && c_detects_lock c && l = false ->
    undone c retryable q' u -> (n < 0)%Z \/ c_skip_history c = true ->
    retry_trace c retryable k q (t ++ u) Failed
| re_fail k q t n l q' u r : run_trace c q t (n, Some l, q') ->
    retryable && c_detects_lock c && l = false ->
    undone c retryable q' u -> (0 <= n)%Z -> c_skip_history c = false ->
    retry_trace c retryable k q
      (t ++ u ++ [(OpUpsert (map failure_row (firstn (S (Z.to_nat n)) q')), r)]) Failed.

Lemma undo_undone c (retryable : bool) q rs t (u : unit) :
  (match q return prog unit with m :: _ => if retryable then ret tt else undo c m | [] => ret tt end) rs = (t, u) ->
  undone c retryable q t.
Proof.
  destruct q as [|m q'].
  - intros H. apply ret_inv in H as [-> _]. apply undone_empty. reflexivity.
  - destruct retryable.
    + intros H. apply ret_inv in H as [-> _]. apply undone_retryable. reflexivity.
    + unfold undo. destruct (c_dir c (undo_name (m_name m))) as [x|] eqn:E; intros H.
      * apply call_bind_inv in H as (r & t2 & H & -> & _). apply ret_inv in H as [-> _].
        eapply undone_run; try reflexivity. exact E.
      * apply ret_inv in H as [-> _]. eapply undone_missing; try reflexivity. exact E.
Qed.

Lemma retry_retry_trace c retryable fuel : forall k q rs t o,
  (c_max_attempts c - k < Z.of_nat fuel)%Z -> (0 < fuel)%nat ->
  retry fuel c retryable k q rs = (t, o) -> retry_trace c retryable k q t o.
Proof.
  induction fuel as [|fuel IH]; intros k q rs t o Hf Hf0 H; [lia|]. cbn [retry] in H.
  apply bind_inv in H as (t1 & [[n err] q'] & t2 & H1 & H & ->). apply run_run_trace in H1.
  destruct err as [l|].
  2:{ apply ret_inv in H as [-> ->]. rewrite app_nil_r. eapply re_done. exact H1. }
  destruct (retryable && c_detects_lock c && l) eqn:El.
  - apply andb_true_iff in El as [El ->]. apply andb_true_iff in El as [Er Ed].
    destruct (c_max_attempts c <=? k + 1)%Z eqn:Em.
    + apply ret_inv in H as [-> ->]. rewrite app_nil_r. eapply re_give_up; try eassumption. lia.
    + destruct (draw_range c (k + 1) <=? 0)%Z eqn:En.
      * apply ret_inv in H as [-> ->]. rewrite app_nil_r. eapply re_panic_draw; try eassumption; lia.
      * apply call_bind_inv in H as (r & t3 & H & -> & _). destruct (n <? 0)%Z eqn:Es.
        -- apply ret_inv in H as [-> ->]. eapply re_panic_index; try eassumption; lia.
        -- apply call_bind_inv in H as (r' & t4 & H & -> & _).
           eapply re_again; try eassumption; try lia. eapply IH; [| |exact H]; lia.
  - apply bind_inv in H as (t3 & u & t4 & H2 & H & ->). apply undo_undone in H2.
    destruct (n <? 0)%Z eqn:Es.
    + apply ret_inv in H as [-> ->]. rewrite app_nil_r. eapply re_fail_quiet; try eassumption. left. lia.
    + destruct (c_skip_history c) eqn:Eh.
      * apply ret_inv in H as [-> ->]. rewrite app_nil_r. eapply re_fail_quiet; try eassumption. right. exact Eh.
      * apply call_bind_inv in H as (r & t5 & H & -> & _). apply ret_inv in H as [-> ->].
        eapply re_fail; try eassumption. lia.
Qed.

(** Traces of [run_with_retry]. *)
Inductive batch_trace (c : config) (q : list migration) : list event -> outcome -> Prop :=
| bt_tx t o : is_tx (c_dialect c) q = true -> retry_trace c true 0 q t o -> batch_trace c q t o
| bt_unreadable m : is_tx (c_dialect c) q = false -> hd_error q = Some m ->
    c_dir c (m_name m) = None -> batch_trace c q [] Failed
| bt_script m x t o : is_tx (c_dialect c) q = false -> q = [m] -> c_dir c (m_name m) = Some x ->
    retry_trace c (single_statement x) 0 q t o -> batch_trace c q t o.

Lemma is_tx_false d q : q <> [] -> is_tx d q = false -> exists m, q = [m].
Proof.
  intros Hq H. destruct q as [|m [|m' q]]; [congruence|exists m; reflexivity|]. cbn in H. discriminate.
Qed.

Lemma run_with_retry_trace c q rs t o :
  q <> [] -> run_with_retry c q rs = (t, o) -> batch_trace c q t o.
Proof.
  intros Hq H. unfold run_with_retry in H. destruct (is_tx (c_dialect c) q) eqn:E.
  - apply bt_tx; [exact E|]. eapply retry_retry_trace; [| |exact H]; lia.
  - destruct (is_tx_false _ _ Hq E) as (m & ->).
    destruct (c_dir c (m_name m)) as [x|] eqn:Ed.
    + eapply bt_script; [exact E|reflexivity|exact Ed|]. eapply retry_retry_trace; [| |exact H]; lia.
    + apply ret_inv in H as [-> ->]. eapply bt_unreadable; [exact E|reflexivity|exact Ed].
Qed.

(** ** Shape of the result *)
Lemma loop_trace_shape c tx done q t res :
  loop_trace c tx done q t res ->
  map key (snd res) = map key (done ++ q)
  /\ (-1 <= fst (fst res) < Z.of_nat (List.length (done ++ q)))%Z
  /\ (done ++ q <> [] -> (0 <= fst (fst res))%Z).
Proof.
  assert (Hb : forall (done rest : list migration) m,
     (-1 <= Z.of_nat (List.length done) < Z.of_nat (List.length (done ++ m :: rest)))%Z)
    by (intros; rewrite app_length; cbn [List.length]; lia).
  assert (He : forall (done : list migration), done <> [] -> (0 <= Z.of_nat (List.length done) - 1)%Z)
    by (intros [|? ?] H; [congruence|cbn [List.length]; lia]).
  induction 1; cbn [fst snd].
  - rewrite app_nil_r. split; [reflexivity|]. split; [lia|apply He].
  - rewrite app_nil_r. split; [reflexivity|]. split; [lia|apply He].
  - rewrite app_nil_r. split; [reflexivity|]. split; [lia|apply He].
  - split; [reflexivity|]. split; [apply Hb|lia].
  - split; [rewrite !map_app; reflexivity|]. split; [apply Hb|lia].
  - destruct IHloop_trace as (E1 & E2 & E3). rewrite <- app_assoc in *. cbn [app] in *.
    rewrite E1. split; [rewrite !map_app; reflexivity|]. rewrite !app_length in *. cbn [List.length] in *.
    split; [exact E2|]. intros _. apply E3. destruct done; discriminate.
  - destruct IHloop_trace as (E1 & E2 & E3). rewrite <- app_assoc in *. cbn [app] in *.
    rewrite E1. split; [rewrite !map_app; reflexivity|]. rewrite !app_length in *. cbn [List.length] in *.
    split; [exact E2|]. intros _. apply E3. destruct done; discriminate.
  - split; [rewrite !map_app; reflexivity|]. split; [apply Hb|lia].
Qed.

Lemma run_trace_shape c q t n err q' :
  run_trace c q t (n, err, q') ->
  map key q' = map key q /\ (-1 <= n)%Z
  /\ (q <> [] -> (n < Z.of_nat (List.length q))%Z)
  /\ (q <> [] -> (n < 0)%Z -> exists l a, t = [(OpBegin, RErr l a)] /\ err = Some l /\ is_tx (c_dialect c) q = true).
Proof.
  inversion 1; subst.
  - split; [reflexivity|]. split; [lia|]. split.
    + intros Hq. lia.
    + intros _ _. eauto.
  - apply loop_trace_shape in H2 as (E1 & E2 & E3). cbn [fst snd app] in *.
    split; [exact E1|]. split; [lia|]. split; [lia|]. intros Hq Hn. specialize (E3 Hq). lia.
  - apply loop_trace_shape in H1 as (E1 & E2 & E3). cbn [fst snd app] in *.
    split; [exact E1|]. split; [lia|]. split; [lia|]. intros Hq Hn. specialize (E3 Hq). lia.
Qed.

Lemma key_length q q' : map key q' = map key q -> List.length q' = List.length q.
Proof. intros H. apply (f_equal (@List.length _)) in H. rewrite !map_length in H. exact H. Qed.

Lemma key_nil q q' : map key q' = map key q -> q <> [] -> q' <> [].
Proof. intros H Hq ->. destruct q; [congruence|discriminate]. Qed.

(** ** Every event of a batch concerns the batch *)
Definition batch_event (c : config) (names : list bytes) (e : event) : Prop :=
  match fst e with
  | OpExec f x => In f names /\ c_dir c f = Some x
  | OpUpsert rows => c_skip_history c = false /\ forall r, In r rows -> In (r_name r) names
  | OpUndo u x => exists f, In f names /\ u = undo_name f /\ c_dir c u = Some x
  | OpRand n => (0 < n)%Z
  | OpSleep d => exists n r, d = delay_of c (drawn n r) /\ (0 < n)%Z
  | OpBegin | OpCommit | OpRollback => True
  | OpEnsure | OpQuery => False
  end.

Lemma rolled_events c names tx b : rolled tx b -> Forall (batch_event c names) b.
Proof. inversion 1; repeat constructor. Qed.

Lemma loop_trace_events c tx done q t res :
  loop_trace c tx done q t res -> Forall (batch_event c (map m_name q)) t.
Proof.
  assert (Hw : forall m q t, Forall (batch_event c (map m_name q)) t ->
                             Forall (batch_event c (map m_name (m :: q))) t).
  { intros m q0 t0 Hall. eapply Forall_impl; [|exact Hall].
    intros [o r] He. unfold batch_event in *. cbn [fst map] in *. destruct o; try exact He.
    - destruct He. split; [right; assumption|assumption].
    - destruct He as [He1 He2]. split; [exact He1|]. intros r0 Hr. right. apply He2. exact Hr.
    - destruct He as (f0 & Hf & He). exists f0. split; [right; exact Hf|exact He]. }
  induction 1.
  - repeat constructor.
  - repeat constructor.
  - constructor.
  - eapply rolled_events. eassumption.
  - constructor; [|eapply rolled_events; eassumption].
    split; [left; reflexivity|assumption].
  - constructor; [split; [left; reflexivity|assumption]|]. apply Hw. assumption.
  - constructor; [split; [left; reflexivity|assumption]|].
    constructor; [|apply Hw; assumption].
    split; [assumption|]. intros r0 [<-|[]]. left. reflexivity.
  - constructor; [split; [left; reflexivity|assumption]|].
    constructor; [|eapply rolled_events; eassumption].
    split; [assumption|]. intros r0 [<-|[]]. left. reflexivity.
Qed.

Lemma run_trace_events c q t res : run_trace c q t res -> Forall (batch_event c (map m_name q)) t.
Proof.
  inversion 1; subst.
  - repeat constructor.
  - constructor; [exact I|]. eapply loop_trace_events. eassumption.
  - eapply loop_trace_events. eassumption.
Qed.

Lemma undone_events c retryable q u : undone c retryable q u -> Forall (batch_event c (map m_name q)) u.
Proof.
  inversion 1; subst; repeat constructor. exists (m_name m). split; [left; reflexivity|]. split; [reflexivity|assumption].
Qed.

Lemma retry_trace_events c retryable k q t o :
  retry_trace c retryable k q t o -> Forall (batch_event c (map m_name q)) t.
Proof.
  induction 1 as [k q t n q' Hr|k q t n q' Hr|k q t n q' Hr|k q t n q' r Hr Hre Hd Hk Hn Hneg
                  |k q t n q' r r' t' o Hr Hre Hd Hk Hn Hneg Ht IH|k q t n l q' u Hr Hl Hu Hq|k q t n l q' u r Hr Hl Hu Hn Hs];
    pose proof (run_trace_events _ _ _ _ Hr) as Ha; pose proof (run_trace_shape _ _ _ _ _ _ Hr) as (Hk' & _).
  - exact Ha.
  - exact Ha.
  - exact Ha.
  - apply Forall_app. split; [exact Ha|]. repeat constructor. unfold batch_event. cbn [fst]. lia.
  - apply Forall_app. split; [exact Ha|]. constructor; [exact Hn|]. constructor.
    + exists (draw_range c (k + 1)), r. split; [reflexivity|exact Hn].
    + rewrite (key_names _ _ Hk') in IH. exact IH.
  - apply Forall_app. split; [exact Ha|]. rewrite <- (key_names _ _ Hk'). eapply undone_events. exact Hu.
  - apply Forall_app. split; [exact Ha|]. apply Forall_app. rewrite <- (key_names _ _ Hk').
    split; [eapply undone_events; exact Hu|]. constructor; [|constructor].
    split; [exact Hs|]. intros r0 Hin. apply in_map_iff in Hin as (m & <- & Hm). cbn [failure_row r_name].
    apply in_map. clear - Hm. rewrite <- (firstn_skipn (S (Z.to_nat n)) q'). apply in_or_app. left. exact Hm.
Qed.

Lemma batch_trace_events c q t o : batch_trace c q t o -> Forall (batch_event c (map m_name q)) t.
Proof.
  inversion 1; subst; [|constructor|]; eapply retry_trace_events; eassumption.
Qed.

Lemma batch_event_weaken c n1 n2 t :
  incl n1 n2 -> Forall (batch_event c n1) t -> Forall (batch_event c n2) t.
Proof.
  intros Hi Hall. eapply Forall_impl; [|exact Hall].
  intros [o r] He. unfold batch_event in *. cbn [fst] in *. destruct o; try exact He.
  - destruct He. split; [apply Hi; assumption|assumption].
  - destruct He as [He1 He2]. split; [exact He1|]. intros r0 Hr. apply Hi, He2. exact Hr.
  - destruct He as (f0 & Hf & He). exists f0. split; [apply Hi; exact Hf|exact He].
Qed.

(** ** Outcomes *)
Lemma retry_trace_fuel c retryable k q t o : retry_trace c retryable k q t o -> o <> OutOfFuel.
Proof. induction 1; try congruence. destruct (n <? 0)%Z; congruence. Qed.
Lemma batch_trace_fuel c q t o : batch_trace c q t o -> o <> OutOfFuel.
Proof. inversion 1; subst; try congruence; eapply retry_trace_fuel; eassumption. Qed.
