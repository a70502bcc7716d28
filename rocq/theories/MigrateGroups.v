(** From batches to whole runs. *)
From Verif Require Import GoStr GoStrFacts ModelSq SpecSql SqFacts ModelHistory HistoryFacts.
From Verif Require Import ModelMigrate SpecDb SpecMigrate MigrateFacts MigrateTrace MigrateBatch.
From Coq Require Import ZifyBool ZifyNat.

(** ** The batches that [drive] flushes *)
Fixpoint plan (c : config) (ms q : list migration) : list (list migration) * outcome :=
  match ms with
  | [] => (match q with [] => [] | _ => [q] end, Done)
  | m :: ms' =>
      match decide c m with
      | Skip => plan c ms' q
      | Unreadable => ([], Failed)
      | Keep m =>
          if must_flush (c_dialect c) q m
          then let (gs, f) := plan c ms' [m] in (q :: gs, f)
          else plan c ms' (q ++ [m])
      end
  end.

Inductive groups_trace (c : config) (fin : outcome) : list (list migration) -> list event -> outcome -> Prop :=
| gt_nil : groups_trace c fin [] [] fin
| gt_next g gs t t' o : batch_trace c g t Done -> groups_trace c fin gs t' o ->
    groups_trace c fin (g :: gs) (t ++ t') o
| gt_stop g gs t o : batch_trace c g t o -> o <> Done -> groups_trace c fin (g :: gs) t o.

Lemma plan_nonempty c ms : forall q, Forall (fun g => g <> []) (fst (plan c ms q)).
Proof.
  induction ms as [|m ms IH]; intros q; cbn [plan].
  - destruct q; cbn [fst]; repeat constructor. discriminate.
  - destruct (decide c m) as [| |m']; [apply IH|constructor|].
    destruct (must_flush (c_dialect c) q m') eqn:E; [|apply IH].
    specialize (IH [m']). destruct (plan c ms [m']) as [gs f]. cbn [fst] in *. constructor; [|exact IH].
    destruct q; [discriminate|discriminate].
Qed.

Lemma drive_trace c ms : forall q rs t o, drive c ms q rs = (t, o) ->
  groups_trace c (snd (plan c ms q)) (fst (plan c ms q)) t o.
Proof.
  assert (Hrun : forall q rs t o, q <> [] -> run_with_retry c q rs = (t, o) -> groups_trace c Done [q] t o).
  { intros q rs t o Hq H. apply run_with_retry_trace in H; [|exact Hq].
    destruct o; try (apply gt_stop; [exact H|congruence]).
    rewrite <- (app_nil_r t). apply gt_next; [exact H|constructor]. }
  induction ms as [|m ms IH]; intros q rs t o H; cbn [drive plan] in *.
  - destruct q as [|m q]; cbn [fst snd].
    + apply ret_inv in H as [-> ->]. constructor.
    + eapply Hrun; [discriminate|exact H].
  - destruct (decide c m) as [| |m'].
    + apply IH in H. exact H.
    + apply ret_inv in H as [-> ->]. constructor.
    + destruct (must_flush (c_dialect c) q m') eqn:Ef; [|apply IH in H; exact H].
      apply bind_inv in H as (t1 & r & t2 & H1 & H2 & ->).
      apply run_with_retry_trace in H1; [|destruct q; discriminate].
      destruct (plan c ms [m']) as [gs f] eqn:Ep. cbn [fst snd].
      assert (Hstop : r <> Done -> ret r (fun n : nat => rs (List.length t1 + n)) = (t2, o) ->
                groups_trace c f (q :: gs) (t1 ++ t2) o).
      { intros Hr Hx. apply ret_inv in Hx as [-> ->]. rewrite app_nil_r. apply gt_stop; assumption. }
      destruct r; try (apply Hstop; [congruence|exact H2]).
      apply IH in H2. rewrite Ep in H2. cbn [fst snd] in H2. apply gt_next; assumption.
Qed.

Inductive migrate_trace (c : config) (walk args : list bytes) (h : list row) : list event -> outcome -> Prop :=
| mt_files : selected_files c walk args = None -> migrate_trace c walk args h [] Failed
| mt_skip files t o : selected_files c walk args = Some files -> c_skip_history c = true ->
    groups_trace c (snd (plan c (map fresh files) [])) (fst (plan c (map fresh files) [])) t o ->
    migrate_trace c walk args h t o
| mt_ensure files r : selected_files c walk args = Some files -> c_skip_history c = false ->
    (is_ok r = false \/ query_names (c_dialect c) files = None) ->
    migrate_trace c walk args h [(OpEnsure, r)] Failed
| mt_query files names r l a : selected_files c walk args = Some files -> c_skip_history c = false ->
    is_ok r = true -> query_names (c_dialect c) files = Some names ->
    migrate_trace c walk args h [(OpEnsure, r); (OpQuery, RErr l a)] Failed
| mt_run files names r r' t o : selected_files c walk args = Some files -> c_skip_history c = false ->
    is_ok r = true -> query_names (c_dialect c) files = Some names -> is_ok r' = true ->
    groups_trace c (snd (plan c (load_migrations files (delivered r' (select_rows names h))) []))
                   (fst (plan c (load_migrations files (delivered r' (select_rows names h))) [])) t o ->
    migrate_trace c walk args h ((OpEnsure, r) :: (OpQuery, r') :: t) o.

Lemma migrate_migrate_trace c walk args h rs t o :
  migrate c walk args h rs = (t, o) -> migrate_trace c walk args h t o.
Proof.
  unfold migrate. intros H. destruct (selected_files c walk args) as [files|] eqn:Ef.
  2:{ apply ret_inv in H as [-> ->]. apply mt_files. exact Ef. }
  destruct (c_skip_history c) eqn:Es.
  { eapply mt_skip; [exact Ef|exact Es|]. eapply drive_trace. exact H. }
  apply call_bind_inv in H as (r & t2 & H & -> & _). destruct (is_ok r) eqn:Er.
  2:{ apply ret_inv in H as [-> ->]. eapply mt_ensure; [exact Ef|exact Es|left; exact Er]. }
  destruct (query_names (c_dialect c) files) as [names|] eqn:En.
  2:{ apply ret_inv in H as [-> ->]. eapply mt_ensure; [exact Ef|exact Es|right; exact En]. }
  apply call_bind_inv in H as (r' & t3 & H & -> & _). destruct (is_ok r') eqn:Er'.
  - eapply mt_run; try eassumption. eapply drive_trace. exact H.
  - apply ret_inv in H as [-> ->]. destruct r' as [|l a|n]; try discriminate. eapply mt_query; eassumption.
Qed.

(** ** Completed groups *)
(** Effects of the completed scripts [ms], in order; before a script is finally applied
    there may be effects of earlier attempts if it runs outside a transaction. *)
Inductive runs_of (c : config) : list migration -> list effect -> Prop :=
| runs_nil : runs_of c [] []
| runs_cons m ms tries es :
    Forall (fun e => e = applied c m \/ e = Partly (m_name m) (contents_of c (m_name m))) tries ->
    (tries <> [] -> is_tx (c_dialect c) [m] = false) ->
    runs_of c ms es -> runs_of c (m :: ms) (tries ++ applied c m :: es).

Lemma runs_app c a b ea eb : runs_of c a ea -> runs_of c b eb -> runs_of c (a ++ b) (ea ++ eb).
Proof.
  induction 1; intros Hb; [exact Hb|]. cbn [app]. rewrite <- app_assoc. cbn [app].
  constructor; auto.
Qed.
Lemma runs_plain c ms : runs_of c ms (map (applied c) ms).
Proof.
  induction ms as [|m ms IH]; [constructor|]. cbn [map].
  apply (runs_cons c m ms []); [constructor|congruence|exact IH].
Qed.

Definition recorded (c : config) (ms : list migration) (h : list row) : list row :=
  if c_skip_history c then h else upsert_all (map success_row ms) h.

Lemma recorded_app c a b h : recorded c (a ++ b) h = recorded c b (recorded c a h).
Proof. unfold recorded. destruct (c_skip_history c); [reflexivity|]. rewrite map_app, upsert_all_app. reflexivity. Qed.
Lemma recorded_nil c h : recorded c [] h = h.
Proof. unfold recorded. destruct (c_skip_history c); reflexivity. Qed.


(** A script outside a transaction that completes. *)
Lemma retry_plain_done c re k m t :
  retry_trace c re k [m] t Done -> is_tx (c_dialect c) [m] = false ->
  forall s, exists tries,
    Forall (fun e => e = applied c m \/ e = Partly (m_name m) (contents_of c (m_name m))) tries
    /\ interp (start s) t = start {| data := data s ++ tries ++ [applied c m]; hist := recorded c [m] (hist s) |}
    /\ (Forall no_lock t -> tries = []).
Proof.
  intros H Htx.
  assert (Hgen : forall q, map key q = map key [m] -> forall k t o, retry_trace c re k q t o -> o = Done ->
    forall s, exists tries,
    Forall (fun e => e = applied c m \/ e = Partly (m_name m) (contents_of c (m_name m))) tries
    /\ interp (start s) t = start {| data := data s ++ tries ++ [applied c m]; hist := recorded c [m] (hist s) |}
    /\ (Forall no_lock t -> tries = [])).
  2:{ eapply Hgen; [reflexivity|exact H|reflexivity]. }
  clear k t H. intros q Hq k t o H. revert Hq.
  induction H as [k q t n q' Hr|k q t n q' Hr _ _ _|k q t n q' Hr _ _ _ _|k q t n q' r Hr Hre Hd Hk Hn Hneg
                  |k q t n q' r r' t' o Hr Hre Hd Hk Hn Hneg Ht IH|k q t n l q' u Hr Hl Hun Hqn|k q t n l q' u r Hr Hl Hun Hn Hs];
    intros Hq Ho s; try discriminate.
  - assert (Htx' : is_tx (c_dialect c) q = false) by (rewrite (key_is_tx _ _ _ Hq); exact Htx).
    destruct q as [|m0 [|m1 q]]; try discriminate.
    assert (Hn0 : m_name m0 = m_name m) by exact (f_equal (hd (m_name m)) (key_names _ _ Hq)).
    assert (Hsr : success_row m0 = success_row m) by exact (f_equal (hd (success_row m)) (key_success _ _ Hq)).
    inversion Hr as [| |t0 res0 _ Hl]; subst; try congruence.
    exists []. split; [constructor|]. split; [|reflexivity]. cbn [app].
    assert (Happ : forall x, c_dir c (m_name m0) = Some x -> applied c m = Applied (m_name m0) x).
    { intros x Hx. unfold applied, contents_of. rewrite <- Hn0, Hx. reflexivity. }
    inversion Hl as [| | | | |? ? ? x r t1 ? Hx Hrk Hs Hl'|? ? ? x r r' t1 ? Hx Hrk Hs Hr'k Hl'|]; subst.
    + inversion Hl'; subst; try discriminate.
      rewrite (Happ x Hx). unfold recorded. rewrite Hs. cbn [interp fold_left step].
      destruct r; try discriminate; reflexivity.
    + inversion Hl'; subst; try discriminate.
      rewrite (Happ x Hx). unfold recorded. rewrite Hs. cbn [interp fold_left]. rewrite Hsr.
      rewrite step_upsert, (ok_took _ Hr'k). cbn [step].
      destruct r; try discriminate; reflexivity.
  - destruct (n <? 0)%Z; discriminate.
  - assert (Htx' : is_tx (c_dialect c) q = false) by (rewrite (key_is_tx _ _ _ Hq); exact Htx).
    pose proof (run_trace_shape _ _ _ _ _ _ Hr) as (Hk' & _).
    assert (Hfirst : exists tries s', Forall (fun e => e = applied c m \/ e = Partly (m_name m) (contents_of c (m_name m))) tries
              /\ interp (start s) t = start s' /\ data s' = data s ++ tries /\ hist s' = hist s
              /\ exists e a, In e t /\ snd e = RErr true a).
    { destruct q as [|m0 [|m1 q]]; try discriminate.
      assert (Hn0 : m_name m0 = m_name m) by exact (f_equal (hd (m_name m)) (key_names _ _ Hq)).
      assert (Happ : forall x, c_dir c (m_name m0) = Some x -> applied c m = Applied (m_name m0) x
                       /\ Partly (m_name m) (contents_of c (m_name m)) = Partly (m_name m0) x).
      { intros x Hx. unfold applied, contents_of. rewrite <- Hn0, Hx. split; reflexivity. }
      inversion Hr as [| |t0 res0 _ Hl]; subst; try congruence.
      inversion Hl as [| | |? ? ? ? Hx Hb|? ? ? x l a b Hx Hb|? ? ? x r0 t1 ? Hx Hrk Hs Hl'|? ? ? x r0 r1 t1 ? Hx Hrk Hs Hr'k Hl'
                      |? ? ? x r0 l a b Hx Hrk Hs Hb]; subst.
      + inversion Hb; subst. destruct (Happ x Hx) as [_ Hp]. destruct a.
        * exists [Partly (m_name m0) x]. eexists. split; [constructor; [right; symmetry; exact Hp|constructor]|].
          split; [reflexivity|]. split; [reflexivity|]. split; [reflexivity|]. eexists _, _. split; [left; reflexivity|reflexivity].
        * exists []. eexists. split; [constructor|]. split; [reflexivity|]. rewrite app_nil_r.
          split; [reflexivity|]. split; [reflexivity|]. eexists _, _. split; [left; reflexivity|reflexivity].
      + inversion Hl'; subst; discriminate.
      + inversion Hl'; subst; discriminate.
      + inversion Hb; subst. destruct (Happ x Hx) as [Hp _].
        exists [Applied (m_name m0) x]. eexists. split; [constructor; [left; symmetry; exact Hp|constructor]|].
        split; [cbn [interp fold_left]; rewrite step_upsert; cbn [took_effect]; cbn [step]; destruct r0; try discriminate; reflexivity|].
        split; [reflexivity|]. split; [reflexivity|]. eexists _, a. split; [right; left; reflexivity|reflexivity]. }
    destruct Hfirst as (tries & s' & Hf & Hi & Hd' & Hh & Hlk).
    assert (Hq' : map key q' = map key [m]) by (rewrite Hk'; exact Hq).
    destruct (IH Hq' Ho s') as (tries' & Hf' & Hi' & _).
    exists (tries ++ tries'). split; [apply Forall_app; split; assumption|]. split.
    + rewrite interp_app, Hi. cbn [interp fold_left step]. fold (interp (start s') t'). rewrite Hi', Hd', Hh, <- !app_assoc. reflexivity.
    + intros Hall. exfalso. destruct Hlk as (e & a & Hin & He). apply Forall_app in Hall as [Hall _].
      rewrite Forall_forall in Hall. exact (Hall e Hin a He).
Qed.

Lemma batch_done c g t :
  g <> [] -> batch_trace c g t Done ->
  forall s, exists es,
    runs_of c g es
    /\ interp (start s) t = start {| data := data s ++ es; hist := recorded c g (hist s) |}
    /\ (Forall no_lock t \/ is_tx (c_dialect c) g = true -> es = map (applied c) g).
Proof.
  intros Hg H s. inversion H as [? ? Htx Hr| |m x ? ? Htx -> Hd Hr]; subst.
  - destruct (retry_trace_tx _ _ _ _ _ Hr Htx s) as (H1 & _ & H3 & _). specialize (H3 eq_refl).
    exists (map (applied c) g). split; [apply runs_plain|]. split; [|reflexivity].
    apply start_eta; [exact H1|]. rewrite H3. reflexivity.
  - destruct (retry_plain_done _ _ _ _ _ Hr Htx s) as (tries & Hf & Hi & Hnl).
    exists (tries ++ [applied c m]). split.
    + apply runs_cons; [exact Hf|intros _; exact Htx|constructor].
    + split; [exact Hi|]. intros [Hl|Hl]; [|congruence]. rewrite (Hnl Hl). reflexivity.
Qed.

(** ** Any point of a run *)
(** [at_point c s gs p x]: [x] is a possible committed state after the operations [p] of a
    run that processes the groups [gs] starting from [s]. *)
Inductive at_point (c : config) (s : store) (gs : list (list migration)) (p : list event) (x : store) : Prop :=
| ap_between k sk es :
    runs_of c (concat (firstn k gs)) es ->
    (Forall no_lock p \/ Forall (fun g => is_tx (c_dialect c) g = true) gs -> es = map (applied c) (concat (firstn k gs))) ->
    sk = {| data := data s ++ es; hist := recorded c (concat (firstn k gs)) (hist s) |} ->
    ( x = sk
      \/ (exists g rows, nth_error gs k = Some g /\ is_tx (c_dialect c) g = true
            /\ fail_rows g rows /\ x = with_rows rows sk)
      \/ (exists k' g rows, k = S k' /\ nth_error gs k' = Some g /\ is_tx (c_dialect c) g = true
            /\ fail_rows g rows /\ went_on p /\ x = with_rows rows sk)
      \/ (exists m tail, nth_error gs k = Some [m] /\ is_tx (c_dialect c) [m] = false
            /\ data x = data sk ++ tail /\ Forall (about c (m_name m)) tail
            /\ forall f, f <> m_name m -> lookup f (hist x) = lookup f (hist sk)) ) ->
    at_point c s gs p x.

Lemma plain_history c f t : forall s, Forall no_tx_event t -> Forall (batch_event c [f]) t ->
  forall g, g <> f -> lookup g (hist (committed (interp (start s) t))) = lookup g (hist s).
Proof.
  induction t as [|ev t IH]; intros s Hn Hb g Hg; [reflexivity|].
  inversion Hn; inversion Hb; subst. destruct (step_no_tx s ev) as (x & Hx); [assumption|].
  change (interp (start s) (ev :: t)) with (interp (step (start s) ev) t). rewrite Hx.
  rewrite (IH x); [|assumption|assumption|assumption].
  assert (Hx' : hist (committed (step (start s) ev)) = hist x) by (rewrite Hx; reflexivity).
  rewrite <- Hx'. clear Hx Hx' IH. destruct ev as [[] r]; cbn [fst batch_event no_tx_event] in *;
      try contradiction; try reflexivity.
  - cbn [step]. destruct r as [|l [|]|n]; reflexivity.
  - rewrite step_upsert. destruct (took_effect r); [|reflexivity].
    unfold write_rows. cbn [update start working current committed hist].
    destruct H5 as [_ H5]. apply lookup_upsert_other. intros Hin. apply in_map_iff in Hin as (r0 & E & Hr0).
    apply H5 in Hr0 as [E'|[]]. congruence.
  - cbn [step]. destruct r as [|l [|]|n]; reflexivity.
Qed.

Lemma prefix_Forall {A} (P : A -> Prop) p t : prefix p t -> Forall P t -> Forall P p.
Proof. intros [q ->] H. apply Forall_app in H. tauto. Qed.

Lemma batch_point c g t o p s :
  g <> [] -> batch_trace c g t o -> prefix p t -> at_point c s [g] p (committed (interp (start s) p)).
Proof.
  intros Hg H Hp. destruct (is_tx (c_dialect c) g) eqn:Htx.
  - inversion H as [? ? _ Hr|m Htx' _ _|m x ? ? Htx' _ _ _]; subst; try congruence.
    destruct (retry_trace_tx _ _ _ _ _ Hr Htx s) as (_ & H2 & _).
    destruct (H2 p Hp) as [(_ & rows & Hf & E)|[(E & _)|(Hw & rows & Hf & E)]]; rewrite E.
    + apply (ap_between c s [g] p _ 0 s []).
      * constructor.
      * reflexivity.
      * cbn [firstn concat]. rewrite recorded_nil, app_nil_r. destruct s; reflexivity.
      * right. left. exists g, rows. cbn. auto.
    + apply (ap_between c s [g] p _ 1 (batch_store c s g) (map (applied c) g)).
      * cbn [firstn concat]. rewrite app_nil_r. apply runs_plain.
      * intros _. cbn [firstn concat]. rewrite app_nil_r. reflexivity.
      * cbn [firstn concat]. rewrite app_nil_r. reflexivity.
      * left. reflexivity.
    + apply (ap_between c s [g] p _ 1 (batch_store c s g) (map (applied c) g)).
      * cbn [firstn concat]. rewrite app_nil_r. apply runs_plain.
      * intros _. cbn [firstn concat]. rewrite app_nil_r. reflexivity.
      * cbn [firstn concat]. rewrite app_nil_r. reflexivity.
      * right. right. left. exists 0, g, rows. cbn. auto 10.
  - destruct (is_tx_false _ _ Hg Htx) as (m & ->).
    pose proof (prefix_Forall _ _ _ Hp (batch_trace_plain _ _ _ _ H Htx)) as Hpl.
    pose proof (prefix_Forall _ _ _ Hp (batch_trace_events _ _ _ _ H)) as Hev. cbn [map] in Hev.
    destruct (plain_effects c (m_name m) p s Hpl Hev) as (e & He & Ha).
    apply (ap_between c s [[m]] p _ 0 s []).
    + constructor.
    + reflexivity.
    + cbn [firstn concat]. rewrite recorded_nil, app_nil_r. destruct s; reflexivity.
    + right. right. right. exists m, e. split; [reflexivity|]. split; [exact Htx|]. split; [exact He|].
      split; [exact Ha|]. intros f Hf. eapply plain_history; eassumption.
Qed.

Lemma at_point_shift c s gs p x g t0 s0 es0 :
  interp (start s0) t0 = start s ->
  runs_of c g es0 ->
  s = {| data := data s0 ++ es0; hist := recorded c g (hist s0) |} ->
  (Forall no_lock t0 \/ is_tx (c_dialect c) g = true -> es0 = map (applied c) g) ->
  at_point c s gs p x -> at_point c s0 (g :: gs) (t0 ++ p) x.
Proof.
  intros Hi Hr0 Hs Hnl0 [k sk es Hr Hnl Hsk Hx].
  apply (ap_between c s0 (g :: gs) (t0 ++ p) x (S k) sk (es0 ++ es)); cbn [firstn concat].
  - apply runs_app; assumption.
  - intros Hl. rewrite map_app. rewrite Hnl0, Hnl; [reflexivity| |].
    + destruct Hl as [Hl|Hl]; [left; apply Forall_app in Hl; tauto|right; inversion Hl; assumption].
    + destruct Hl as [Hl|Hl]; [left; apply Forall_app in Hl; tauto|right; inversion Hl; assumption].
  - rewrite Hsk, Hs. cbn [data hist]. rewrite recorded_app, app_assoc. reflexivity.
  - destruct Hx as [Hx|[Hx|[(k' & g' & rows & -> & H1 & H2 & H3 & (p1 & e & p2 & ->) & H5)|Hx]]].
    + left. exact Hx.
    + right. left. exact Hx.
    + right. right. left. exists (S k'), g', rows. split; [reflexivity|]. split; [exact H1|].
      split; [exact H2|]. split; [exact H3|]. split; [|exact H5].
      exists (t0 ++ p1), e, p2. rewrite <- app_assoc. reflexivity.
    + right. right. right. exact Hx.
Qed.

Lemma at_point_more c s gs gs' p x : at_point c s gs p x ->
  (Forall (fun g => is_tx (c_dialect c) g = true) (gs ++ gs') -> Forall (fun g => is_tx (c_dialect c) g = true) gs) ->
  at_point c s (gs ++ gs') p x.
Proof.
  intros [k sk es Hr Hnl Hsk Hx] Hall.
  set (k0 := Nat.min k (List.length gs)).
  assert (Hf : firstn k0 (gs ++ gs') = firstn k gs).
  { unfold k0. rewrite firstn_app. destruct (Nat.le_gt_cases k (List.length gs)).
    - rewrite Nat.min_l by assumption. replace (k - List.length gs) with 0 by lia. rewrite firstn_O, app_nil_r. reflexivity.
    - rewrite Nat.min_r by lia. rewrite Nat.sub_diag, firstn_O, app_nil_r, firstn_all, firstn_all2 by lia. reflexivity. }
  assert (Hnth : forall j g, nth_error gs j = Some g -> nth_error (gs ++ gs') j = Some g /\ j < List.length gs).
  { intros j g Hj. assert (j < List.length gs) by (apply nth_error_Some; congruence).
    rewrite nth_error_app1 by assumption. auto. }
  apply (ap_between c s (gs ++ gs') p x k0 sk es).
  - rewrite Hf. exact Hr.
  - rewrite Hf. intros [Hl|Hl]; apply Hnl; [left; exact Hl|right; apply Hall; exact Hl].
  - rewrite Hf. exact Hsk.
  - destruct Hx as [Hx|[(g & rows & H1 & H2)|[(k' & g' & rows & -> & H1 & H2)|(m & tail & H1 & H2)]]].
    + left. exact Hx.
    + apply Hnth in H1 as [H1 H3]. assert (Ek : k0 = k) by (unfold k0; lia). rewrite Ek.
      right. left. exists g, rows. split; assumption.
    + apply Hnth in H1 as [H1 H3]. assert (Ek : k0 = S k') by (unfold k0; lia). rewrite Ek.
      right. right. left. exists k', g', rows. split; [reflexivity|]. split; assumption.
    + apply Hnth in H1 as [H1 H3]. assert (Ek : k0 = k) by (unfold k0; lia). rewrite Ek.
      right. right. right. exists m, tail. split; assumption.
Qed.

Lemma at_point_start c s gs p : at_point c s gs p s.
Proof.
  apply (ap_between c s gs p s 0 s []).
  - constructor.
  - reflexivity.
  - cbn [firstn concat]. rewrite recorded_nil, app_nil_r. destruct s; reflexivity.
  - left. reflexivity.
Qed.

Lemma groups_point c fin gs t o :
  groups_trace c fin gs t o -> Forall (fun g => g <> []) gs ->
  forall s p, prefix p t -> at_point c s gs p (committed (interp (start s) p)).
Proof.
  induction 1 as [|g gs t t' o Hb Hg IH|g gs t o Hb Ho]; intros Hne s p Hp.
  - apply prefix_of_nil in Hp. subst. apply at_point_start.
  - inversion Hne as [|? ? Hg0 Hgs]; subst. apply prefix_app in Hp as [Hp|(p' & -> & Hp)].
    + change (g :: gs) with ([g] ++ gs). apply at_point_more; [eapply batch_point; eassumption|].
      intros Hall. inversion Hall; subst. repeat constructor. assumption.
    + destruct (batch_done c g t Hg0 Hb s) as (es & Hr & Hi & Hnl).
      rewrite interp_app, Hi. eapply at_point_shift; [exact Hi|exact Hr|reflexivity|exact Hnl|].
      apply IH; assumption.
  - inversion Hne as [|? ? Hg0 Hgs]; subst.
    change (g :: gs) with ([g] ++ gs). apply at_point_more; [eapply batch_point; eassumption|].
    intros Hall. inversion Hall; subst. repeat constructor. assumption.
Qed.

(** A run that completes. *)
Lemma groups_done c gs t :
  groups_trace c Done gs t Done -> Forall (fun g => g <> []) gs ->
  forall s, exists es,
    runs_of c (concat gs) es
    /\ interp (start s) t = start {| data := data s ++ es; hist := recorded c (concat gs) (hist s) |}
    /\ (Forall no_lock t \/ Forall (fun g => is_tx (c_dialect c) g = true) gs -> es = map (applied c) (concat gs)).
Proof.
  intros H. remember Done as fin eqn:Ef in H at 1. remember Done as o eqn:Eo in H.
  revert Ef Eo. induction H as [|g gs t t' o Hb Hg IH|g gs t o Hb Ho]; intros Ef Eo Hne s; subst; [| |congruence].
  - exists []. split; [constructor|]. split; [|reflexivity]. cbn [concat]. rewrite recorded_nil, app_nil_r. destruct s; reflexivity.
  - inversion Hne as [|? ? Hg0 Hgs]; subst.
    destruct (batch_done c g t Hg0 Hb s) as (es & Hr & Hi & Hnl).
    destruct (IH eq_refl eq_refl Hgs {| data := data s ++ es; hist := recorded c g (hist s) |}) as (es' & Hr' & Hi' & Hnl').
    exists (es ++ es'). cbn [concat]. split; [apply runs_app; assumption|]. split.
    + rewrite interp_app, Hi, Hi'. cbn [data hist]. rewrite recorded_app, app_assoc. reflexivity.
    + intros Hl. rewrite map_app. rewrite Hnl, Hnl'; [reflexivity| |].
      * destruct Hl as [Hl|Hl]; [left; apply Forall_app in Hl; tauto|right; inversion Hl; assumption].
      * destruct Hl as [Hl|Hl]; [left; apply Forall_app in Hl; tauto|right; inversion Hl; assumption].
Qed.

Lemma groups_trace_fin c fin gs t : groups_trace c fin gs t Done -> fin = Done.
Proof. intros H. remember Done as o eqn:E in H. revert E. induction H; intros; subst; auto; congruence. Qed.

(** Every event of a run concerns its scripts. *)
Lemma groups_events c fin gs t o :
  groups_trace c fin gs t o -> Forall (batch_event c (map m_name (concat gs))) t.
Proof.
  induction 1 as [|g gs t t' o Hb Hg IH|g gs t o Hb Ho].
  - constructor.
  - cbn [concat]. rewrite map_app. apply Forall_app. split.
    + eapply batch_event_weaken; [|eapply batch_trace_events; exact Hb]. apply incl_appl, incl_refl.
    + eapply batch_event_weaken; [|exact IH]. apply incl_appr, incl_refl.
  - cbn [concat]. rewrite map_app. eapply batch_event_weaken; [|eapply batch_trace_events; exact Hb]. apply incl_appl, incl_refl.
Qed.
