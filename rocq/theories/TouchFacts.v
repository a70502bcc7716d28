(** Facts about touch. *)
From Verif Require Import GoStr GoStrFacts ModelSq SpecSql SqFacts ModelHistory HistoryFacts.
From Verif Require Import ModelMigrate SpecDb SpecMigrate MigrateFacts MigrateTrace MigrateBatch MigrateGroups MigratePlan MigrateSafety MigrateWitness ModelCommands.

(** ** Rows *)
Fixpoint touch_rows (c : config) (sum : option bytes) (files : list bytes) : option (list row) :=
  match files with
  | [] => Some []
  | f :: files' =>
      match touch_row c sum f with
      | None => None
      | Some r => match touch_rows c (r_checksum r) files' with Some l => Some (r :: l) | None => None end
      end
  end.

(** The row of a touched script. *)
Definition touched (c : config) (f : bytes) : row :=
  {| r_name := f; r_checksum := if repeatable f then Some (checksum_of c (contents_of c f)) else None;
     r_started := true; r_success := true |}.

Lemma touch_rows_repeat c l : forall sum rows, Forall (fun f => repeatable f = true) l ->
  touch_rows c sum l = Some rows -> rows = map (touched c) l /\ Forall (readable c) l.
Proof.
  induction l as [|f l IH]; intros sum rows Hl H; cbn [touch_rows] in H.
  - injection H as <-. split; [reflexivity|constructor].
  - inversion Hl as [|? ? Hf Hl']; subst. unfold touch_row in H. rewrite Hf in H.
    destruct (c_dir c f) as [x|] eqn:Ed; [|discriminate].
    destruct (touch_rows c _ l) as [l'|] eqn:El; [|discriminate]. injection H as <-.
    destruct (IH _ _ Hl' El) as [-> Hr]. split.
    + cbn [map]. f_equal. unfold touched, contents_of. rewrite Hf, Ed. reflexivity.
    + constructor; [unfold readable; congruence|exact Hr].
Qed.

Lemma touch_rows_sorted c reg rep rows :
  Forall (fun f => repeatable f = false) reg -> Forall (fun f => repeatable f = true) rep ->
  touch_rows c None (reg ++ rep) = Some rows -> rows = map (touched c) (reg ++ rep) /\ Forall (readable c) rep.
Proof.
  intros Hreg Hrep. revert rows. induction Hreg as [|f reg Hf Hreg IH]; intros rows H; cbn [app] in *.
  - eapply touch_rows_repeat; eassumption.
  - cbn [touch_rows] in H. unfold touch_row in H. rewrite Hf in H. cbn [r_checksum] in H.
    destruct (touch_rows c None (reg ++ rep)) as [l|]; [|discriminate]. injection H as <-.
    destruct (IH l eq_refl) as [-> Hr]. split; [|exact Hr]. cbn [map]. f_equal. unfold touched. rewrite Hf. reflexivity.
Qed.

(** ** Events *)
Definition rows_of (e : event) : list row := match fst e with OpUpsert rows => rows | _ => [] end.
Definition is_upsert (e : event) : Prop := exists rows, fst e = OpUpsert rows.

Lemma touch_loop_trace c files : forall sum acc rs t b,
  touch_loop c files sum acc rs = (t, b) ->
  Forall is_upsert t
  /\ (b = true -> Forall (fun e : event => is_ok (snd e) = true) t
      /\ exists rows, touch_rows c sum files = Some rows /\ flat_map rows_of t = acc ++ rows).
Proof.
  induction files as [|f files IH]; intros sum acc rs t b H; cbn [touch_loop] in H.
  - destruct acc as [|a acc].
    + injection H as <- <-. split; [constructor|]. intros _. split; [constructor|]. exists []. split; reflexivity.
    + unfold bind, call, ret in H. cbn in H. injection H as <- <-. split; [repeat constructor; eexists; reflexivity|].
      intros Hb. split; [repeat constructor; exact Hb|]. exists []. cbn. rewrite !app_nil_r. split; reflexivity.
  - cbn [touch_rows]. destruct (touch_row c sum f) as [r|].
    2:{ injection H as <- <-. split; [constructor|discriminate]. }
    cbn zeta in H. destruct (history_batch_size (c_dialect c) <=? List.length (acc ++ [r])).
    + unfold bind, call in H. destruct (is_ok (rs 0)) eqn:Eok.
      * destruct (touch_loop c files (r_checksum r) [] _) as [t' b'] eqn:El. injection H as <- <-.
        destruct (IH _ _ _ _ _ El) as [Hu Hok]. split; [constructor; [eexists; reflexivity|exact Hu]|].
        intros Hb. destruct (Hok Hb) as (Ho & rows & Hr & Hf). split; [constructor; [exact Eok|exact Ho]|].
        rewrite Hr. exists (r :: rows). split; [reflexivity|]. cbn [app flat_map]. rewrite Hf.
        unfold rows_of at 1. cbn [fst]. rewrite <- app_assoc. reflexivity.
      * injection H as <- <-. split; [repeat constructor; eexists; reflexivity|discriminate].
    + destruct (IH _ _ _ _ _ H) as [Hu Hok]. split; [exact Hu|]. intros Hb.
      destruct (Hok Hb) as (Ho & rows & Hr & Hf). split; [exact Ho|]. rewrite Hr. exists (r :: rows).
      split; [reflexivity|]. rewrite Hf, <- app_assoc. reflexivity.
Qed.

(** The shape of a run of touch. *)
Inductive touch_trace (c : config) (walk args : list bytes) : list event -> outcome -> Prop :=
| tt_early t : Forall (fun e => fst e = OpEnsure \/ (fst e = OpBegin /\ is_ok (snd e) = false)) t ->
    touch_trace c walk args t Failed
| tt_abort files r1 r2 us r : is_ok r1 = true -> is_ok r2 = true -> selected_files c walk args = Some files ->
    Forall is_upsert us -> touch_trace c walk args ((OpEnsure, r1) :: (OpBegin, r2) :: us ++ [(OpRollback, r)]) Failed
| tt_commit files rows r1 r2 us r : is_ok r1 = true -> is_ok r2 = true -> selected_files c walk args = Some files ->
    Forall is_upsert us -> Forall (fun e : event => is_ok (snd e) = true) us ->
    touch_rows c None files = Some rows -> flat_map rows_of us = rows ->
    touch_trace c walk args ((OpEnsure, r1) :: (OpBegin, r2) :: us ++ [(OpCommit, r)])
      (if is_ok r then Done else Failed).

Lemma touch_touch_trace c walk args rs t o : touch c walk args rs = (t, o) -> touch_trace c walk args t o.
Proof.
  unfold touch. intros H. unfold bind at 1, call at 1 in H. destruct (is_ok (rs 0)) eqn:E1.
  2:{ injection H as <- <-. apply tt_early. repeat constructor. }
  destruct (selected_files c walk args) as [files|] eqn:Es.
  2:{ injection H as <- <-. apply tt_early. repeat constructor. }
  unfold bind at 1, call at 1 in H. cbn [List.length Nat.add] in H. destruct (is_ok (rs 1)) eqn:E2.
  2:{ cbn in H. injection H as <- <-. apply tt_early. constructor; [left; reflexivity|]. constructor; [right; split; [reflexivity|exact E2]|constructor]. }
  unfold bind at 1 in H. cbn [List.length Nat.add] in H.
  destruct (touch_loop c files None [] _) as [us b] eqn:El.
  destruct (touch_loop_trace _ _ _ _ _ _ _ El) as [Hu Hok]. destruct b.
  - destruct (Hok eq_refl) as (Ho & rows & Hr & Hf). unfold bind, call, ret in H.
    injection H as <- <-. cbn [app]. eapply tt_commit; eassumption.
  - unfold bind, call, ret in H. injection H as <- <-. cbn [app]. eapply tt_abort; eassumption.
Qed.

(** ** Effects *)
Lemma interp_upserts us : forall st w, Forall is_upsert us -> working st = Some w ->
  exists w', interp st us = {| committed := committed st; working := Some w' |} /\ data w' = data w
    /\ (Forall (fun e : event => is_ok (snd e) = true) us -> hist w' = upsert_all (flat_map rows_of us) (hist w)).
Proof.
  induction us as [|[o r] us IH]; intros st w Hu Hw.
  - exists w. destruct st as [cm wk]. cbn in *. subst wk. auto.
  - inversion Hu as [|? ? [rows E] Hu']; subst. cbn [fst] in E. subst o.
    change (interp st ((OpUpsert rows, r) :: us)) with (interp (step st (OpUpsert rows, r)) us).
    rewrite step_upsert. destruct (took_effect r) eqn:Et.
    + unfold write_rows, update, current. rewrite Hw.
      destruct (IH {| committed := committed st; working := Some {| data := data w; hist := upsert_all rows (hist w) |} |} _ Hu' eq_refl)
        as (w' & Hi & Hd & Hh).
      exists w'. split; [exact Hi|]. split; [exact Hd|]. intros Hok. inversion Hok; subst. rewrite Hh by assumption.
      cbn [hist flat_map]. rewrite upsert_all_app. reflexivity.
    + destruct (IH st w Hu' Hw) as (w' & Hi & Hd & _). exists w'. split; [exact Hi|]. split; [exact Hd|].
      intros Hok. inversion Hok as [|? ? Hr _]; subst. cbn [snd] in Hr. destruct r as [|[|] [|]|n]; discriminate.
Qed.

Lemma prefix_app {A} (p a b : list A) : prefix p (a ++ b) -> prefix p a \/ exists q, p = a ++ q /\ prefix q b.
Proof.
  revert p. induction a as [|x a IH]; intros p H.
  - right. exists p. split; [reflexivity|exact H].
  - destruct p as [|y p]; [left; exists (x :: a); reflexivity|]. destruct H as (q & H). cbn [app] in H. injection H as <- H.
    destruct (IH p) as [(q' & ->)|(q' & -> & Hq')]; [exists q; exact H| |].
    + left. exists q'. reflexivity.
    + right. exists q'. split; [reflexivity|exact Hq'].
Qed.

Lemma prefix_Forall {A} (P : A -> Prop) p t : prefix p t -> Forall P t -> Forall P p.
Proof. intros (q & ->) H. apply Forall_app in H. apply H. Qed.

Lemma after_begin s r1 r2 p : is_ok r2 = true ->
  after s ((OpEnsure, r1) :: (OpBegin, r2) :: p)
  = survives (interp {| committed := s; working := Some s |} p).
Proof. intros E. unfold after, interp. cbn [fold_left step]. rewrite E. reflexivity. Qed.

Lemma sorted_split l : exists reg rep, sort_and_filter l = reg ++ rep
  /\ Forall (fun f => repeatable f = false) reg /\ Forall (fun f => repeatable f = true) rep.
Proof.
  rewrite sort_and_filter_spec. eexists _, _. split; [reflexivity|].
  split; apply Forall_forall; intros x Hx; apply filter_In in Hx as [_ Hx].
  - destruct (repeatable x); [|reflexivity]. rewrite andb_false_r in Hx. discriminate.
  - apply andb_true_iff in Hx as [_ Hx]. exact Hx.
Qed.

Lemma selected_split c walk args files : selected_files c walk args = Some files ->
  exists reg rep, files = reg ++ rep
  /\ Forall (fun f => repeatable f = false) reg /\ Forall (fun f => repeatable f = true) rep.
Proof.
  unfold selected_files. destruct args as [|a args]; [intros [= <-]; apply sorted_split|].
  destruct (forallb _ _); [|discriminate]. intros [= <-]. apply sorted_split.
Qed.

Lemma touch_rows_selected c walk args files rows : selected_files c walk args = Some files ->
  touch_rows c None files = Some rows ->
  rows = map (touched c) files /\ forall f, In f files -> repeatable f = true -> readable c f.
Proof.
  intros Hs Hr. destruct (selected_split _ _ _ _ Hs) as (reg & rep & -> & Hreg & Hrep).
  destruct (touch_rows_sorted c reg rep _ Hreg Hrep Hr) as [-> Hread]. split; [reflexivity|].
  intros f Hf Hx. apply in_app_iff in Hf as [Hf|Hf].
  - rewrite Forall_forall in Hreg. rewrite (Hreg f Hf) in Hx. discriminate.
  - rewrite Forall_forall in Hread. apply Hread. exact Hf.
Qed.

Definition touched_all (c : config) (files : list bytes) (s : store) : store :=
  {| data := data s; hist := upsert_all (map (touched c) files) (hist s) |}.

(** At every point of every run, touch has done either nothing or everything. *)
Lemma touch_atomic c walk args s rs t o p : touch c walk args rs = (t, o) -> prefix p t ->
  after s p = s \/ exists files, selected_files c walk args = Some files /\ after s p = touched_all c files s.
Proof.
  intros H Hp. apply touch_touch_trace in H.
  inversion H as [t' Ht|files r1 r2 us r E1 E2 Hs Hu|files rows r1 r2 us r E1 E2 Hs Hu Hok Hr Hf]; subst.
  - left. apply (prefix_Forall _ _ _ Hp) in Ht. clear Hp H.
    change (survives (interp (start s) p) = s).
    assert (Hi : forall st, interp st p = st); [|rewrite Hi; reflexivity].
    induction Ht as [|[o r] p He Ht IH]; intros st; [reflexivity|].
    change (interp (step st (o, r)) p = st). rewrite IH. cbn [fst snd] in He.
    destruct He as [->|[-> E]]; [reflexivity|]. cbn [step]. rewrite E. reflexivity.
  - left. destruct Hp as (q & Hp).
    destruct p as [|e1 p]; [reflexivity|]. injection Hp as <- Hp.
    destruct p as [|e2 p]; [reflexivity|]. injection Hp as <- Hp. rewrite after_begin by exact E2.
    assert (Hp' : prefix p (us ++ [(OpRollback, r)])) by (exists q; exact Hp).
    destruct (prefix_app _ _ _ Hp') as [Hq|(q' & -> & Hq)].
    + destruct (interp_upserts p {| committed := s; working := Some s |} s) as (w & -> & _); [eapply prefix_Forall; eassumption|reflexivity|reflexivity].
    + unfold interp. rewrite fold_left_app. fold (interp {| committed := s; working := Some s |} us).
      destruct (interp_upserts us {| committed := s; working := Some s |} s Hu eq_refl) as (w & -> & _).
      destruct Hq as (q2 & Hq). destruct q' as [|e q']; [reflexivity|]. injection Hq as <- Hq.
      destruct q'; [reflexivity|discriminate].
  - destruct Hp as (q & Hp).
    destruct p as [|e1 p]; [left; reflexivity|]. injection Hp as <- Hp.
    destruct p as [|e2 p]; [left; reflexivity|]. injection Hp as <- Hp.
    rewrite after_begin by exact E2.
    assert (Hp' : prefix p (us ++ [(OpCommit, r)])) by (exists q; exact Hp).
    destruct (touch_rows_selected _ _ _ _ _ Hs Hr) as [Hrows _].
    destruct (prefix_app _ _ _ Hp') as [Hq|(q' & -> & Hq)].
    + left. destruct (interp_upserts p {| committed := s; working := Some s |} s) as (w & -> & _); [eapply prefix_Forall; eassumption|reflexivity|reflexivity].
    + unfold interp. rewrite fold_left_app. fold (interp {| committed := s; working := Some s |} us).
      destruct (interp_upserts us {| committed := s; working := Some s |} s Hu eq_refl) as (w & -> & Hd & Hh).
      destruct Hq as (q2 & Hq). destruct q' as [|e q']; [left; reflexivity|]. injection Hq as <- Hq.
      destruct q'; [|discriminate]. cbn [fold_left].
      assert (Hc : step {| committed := s; working := Some w |} (OpCommit, r)
                   = if took_effect r then {| committed := w; working := None |} else {| committed := s; working := None |})
        by (destruct r as [|[|] [|]|n]; reflexivity).
      cbn [committed]. rewrite Hc. destruct (took_effect r); [right|left; reflexivity].
      exists files. split; [exact Hs|]. unfold touched_all, survives. cbn [committed]. destruct w as [dw hw]. cbn [data hist] in *.
      rewrite Hd, Hh by exact Hok. rewrite Hrows. reflexivity.
Qed.

Lemma touch_done c walk args s rs t : touch c walk args rs = (t, Done) ->
  exists files, selected_files c walk args = Some files /\ after s t = touched_all c files s
    /\ forall f, In f files -> repeatable f = true -> readable c f.
Proof.
  intros H. apply touch_touch_trace in H. remember Done as o eqn:Eo.
  destruct H as [t Ht|files r1 r2 us r E1 E2 Hs Hu|files rows r1 r2 us r E1 E2 Hs Hu Hok Hr Hf]; try discriminate.
  destruct (is_ok r) eqn:Er; [|discriminate]. exists files. split; [exact Hs|].
  destruct (touch_rows_selected _ _ _ _ _ Hs Hr) as [Hrows Hread]. split; [|exact Hread].
  rewrite after_begin by exact E2. unfold interp. rewrite fold_left_app. fold (interp {| committed := s; working := Some s |} us).
  destruct (interp_upserts us {| committed := s; working := Some s |} s Hu eq_refl) as (w & -> & Hd & Hh).
  cbn [fold_left committed].
  assert (Hc : step {| committed := s; working := Some w |} (OpCommit, r) = {| committed := w; working := None |})
    by (destruct r as [|l a|n]; [reflexivity|discriminate|reflexivity]).
  rewrite Hc. unfold touched_all, survives. cbn [committed]. destruct w as [dw hw]. cbn [data hist] in *.
  rewrite Hd, Hh by exact Hok. rewrite Hf, Hrows. reflexivity.
Qed.

Lemma touch_no_exec c walk args rs t o : touch c walk args rs = (t, o) ->
  no_exec t /\ forall f x r, ~ In (OpUndo f x, r) t.
Proof.
  intros H. apply touch_touch_trace in H.
  assert (Hx : Forall (fun e : event => match fst e with OpExec _ _ | OpUndo _ _ => False | _ => True end) t).
  { assert (Hu' : forall us, Forall is_upsert us ->
       Forall (fun e : event => match fst e with OpExec _ _ | OpUndo _ _ => False | _ => True end) us).
    { intros us Hu. eapply Forall_impl; [|exact Hu]. intros e [rows E]. cbn. rewrite E. exact I. }
    destruct H as [t Ht|files r1 r2 us r E1 E2 Hs Hu|files rows r1 r2 us r E1 E2 Hs Hu Hok Hr Hf].
    - eapply Forall_impl; [|exact Ht]. intros e [E|[E _]]; cbn; rewrite E; exact I.
    - constructor; [exact I|]. constructor; [exact I|]. apply Forall_app. split; [apply Hu'; exact Hu|repeat constructor].
    - constructor; [exact I|]. constructor; [exact I|]. apply Forall_app. split; [apply Hu'; exact Hu|repeat constructor]. }
  rewrite Forall_forall in Hx. split.
  - intros f x r Hi. exact (Hx _ Hi).
  - intros f x r Hi. exact (Hx _ Hi).
Qed.

(** ** The rows of the touched scripts *)
Lemma lookup_touched c files h f : In f files -> lookup f (upsert_all (map (touched c) files) h) = Some (touched c f).
Proof.
  intros Hf. destruct (lookup_upsert_cases f (map (touched c) files) h) as [(r & Hr & Hn & ->)|[Hn _]].
  - apply in_map_iff in Hr as (g & <- & _). cbn [r_name touched] in Hn. subst g. reflexivity.
  - exfalso. apply Hn. rewrite map_map. cbn [r_name touched]. rewrite map_id. exact Hf.
Qed.
Lemma lookup_untouched c files h f : ~ In f files -> lookup f (upsert_all (map (touched c) files) h) = lookup f h.
Proof. intros Hf. apply lookup_upsert_other. rewrite map_map. cbn [r_name touched]. rewrite map_id. exact Hf. Qed.
