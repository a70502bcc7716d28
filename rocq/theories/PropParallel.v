(** C85: a CSV file is loaded completely or not at all, also when others are loaded at the same
    time. *)
From Coq Require Import Arith Lia.
From Verif Require Import GoStr ModelParallel.

(** ** The claim *)
(** The rows of a file, in what the database has. *)
Definition of_file (i : nat) (ws : list write) : list write := filter (fun w => Nat.eqb (fst w) i) ws.
(** The statements of file [i] write rows of file [i]; there may be any number of them. *)
Definition own_writes (files : nat -> list write) : Prop := forall i w, In w (files i) -> fst w = i.
Definition all_or_nothing (files : nat -> list write) (n : nat) (committed : list write) : Prop :=
  forall i, i < n -> of_file i committed = [] \/ of_file i committed = files i.
(** A call fails, or the context is cancelled. *)
Definition is_good (e : event) : bool := match e with Succeeds _ => true | _ => false end.

(** At every moment (the process may die at any), whatever calls fail: each file is there
    completely or not at all; those that were reported as loaded are there; and no file fails
    unless a call of its own fails. *)
Definition C85_at (d : dialect) (src : source) (r : reaction) (files : nat -> list write) (n : nat) (es : list event) : Prop :=
  let s := after_events (mode_of src d) r files n es in
  all_or_nothing files n (s_committed s) /\
  (forall i, s_workers s i = Loaded -> of_file i (s_committed s) = files i) /\
  (forall i, s_workers s i = Failed -> exists e, In e es /\ is_good e = false).
Definition C85_claim (d : dialect) (src : source) : Prop :=
  forall r files n es, own_writes files -> C85_at d src r files n es.
Definition C85_full : Prop := forall d src, C85_claim d src.

(** ** One transaction for each connection *)
Section Proof.
Context (m : mode) (r : reaction) (files : nat -> list write) (n : nat).
Hypothesis Hm : m <> OneConnection \/ n <= 1.
Hypothesis Own : own_writes files.

Lemma of_file_app i a b : of_file i (a ++ b) = of_file i a ++ of_file i b.
Proof. apply filter_app. Qed.
Lemma of_file_own i a : (forall w, In w a -> fst w = i) -> of_file i a = a.
Proof.
  induction a as [|w a IH]; intros H; [reflexivity|]. cbn [of_file filter]. rewrite (H w (or_introl eq_refl)), Nat.eqb_refl.
  f_equal. apply IH. intros x I. apply H. right. exact I.
Qed.
Lemma of_file_other i j a : i <> j -> (forall w, In w a -> fst w = j) -> of_file i a = [].
Proof.
  intros N. induction a as [|w a IH]; intros H; [reflexivity|]. cbn [of_file filter]. rewrite (H w (or_introl eq_refl)).
  destruct (Nat.eqb_spec j i) as [E|_]; [exfalso; apply N; auto|]. apply IH. intros x I. apply H. right. exact I.
Qed.

(** The transaction of a working file has what it has written; a connection without a working
    file has no transaction; two working files have different connections. *)
Record inv (s : state) : Prop := {
  i_tx : forall i todo, s_workers s i = Working todo ->
         exists done, s_open s (connection m i) = Some done /\ files i = done ++ todo;
  i_idle : forall k, (forall i todo, s_workers s i = Working todo -> connection m i <> k) -> s_open s k = None;
  i_apart : forall i j a b, s_workers s i = Working a -> s_workers s j = Working b -> connection m i = connection m j -> i = j;
  i_turn : m = OneByOne -> forall i, s_workers s i <> Waiting -> forall j, j < i -> s_workers s j = Loaded;
  i_below : forall i, s_workers s i <> Waiting -> i < n;
  i_waiting : forall i, (s_workers s i = Waiting \/ exists todo, s_workers s i = Working todo) -> of_file i (s_committed s) = [];
  i_loaded : forall i, s_workers s i = Loaded -> of_file i (s_committed s) = files i;
  i_any : forall i, of_file i (s_committed s) = [] \/ of_file i (s_committed s) = files i
}.
Lemma set_same {A} (f : nat -> A) i a : set f i a i = a.
Proof. unfold set. rewrite Nat.eqb_refl. reflexivity. Qed.
Lemma set_other {A} (f : nat -> A) i j a : j <> i -> set f i a j = f j.
Proof. intros N. unfold set. destruct (Nat.eqb_spec j i); [contradiction|reflexivity]. Qed.

Lemma inv_start : inv start.
Proof. constructor; cbn; intros; try discriminate; try congruence; auto. Qed.

(** Nobody else uses the connection of a file whose turn it is. *)
Lemma turn_free s i : inv s -> s_workers s i = Waiting -> may_begin m n s i = true -> s_open s (connection m i) = None.
Proof.
  intros I W T. apply (i_idle s I). intros j todo Wj E. unfold may_begin in T. apply andb_true_iff in T. destruct T as [T0 T].
  destruct m eqn:Em.
  - cbn in E. subst j. congruence.
  - destruct Hm as [X|X]; [contradiction|]. apply Nat.ltb_lt in T0.
    assert (j < n) by (apply (i_below s I); rewrite Wj; discriminate). assert (j = i) by lia. congruence.
  - rewrite forallb_forall in T.
    destruct (Nat.lt_trichotomy j i) as [L|[->|L]]; [|congruence|].
    + specialize (T j). rewrite Wj in T. cbn in T. discriminate T. apply in_seq. lia.
    + assert (X : s_workers s i = Loaded).
      { apply (i_turn s I Em j); [rewrite Wj; discriminate|exact L]. }
      congruence.
Qed.
(** A file that stops working: its connection is free and its rows are there or not. *)
Lemma stop_inv s i todo w c : inv s -> s_workers s i = Working todo -> (w = Loaded \/ w = Failed) ->
  (w = Loaded -> of_file i c = files i) ->
  (forall j, j <> i -> of_file j c = of_file j (s_committed s)) -> (of_file i c = [] \/ of_file i c = files i) ->
  inv (become (with_open s (connection m i) None c) i w).
Proof.
  intros I W Ww Hl Ho Hi. unfold become, with_open. cbn [s_workers s_open s_committed].
  constructor; cbn [s_workers s_open s_committed].
  - intros j t Wj. destruct (Nat.eq_dec j i) as [->|N]; [rewrite set_same in Wj; destruct Ww; congruence|].
    rewrite set_other in Wj by exact N. destruct (i_tx s I j t Wj) as (done & E & F). exists done. split; [|exact F].
    rewrite set_other; [exact E|]. intros X. apply N. exact (i_apart s I j i t todo Wj W X).
  - intros k H. destruct (Nat.eq_dec k (connection m i)) as [->|N]; [apply set_same|]. rewrite set_other by exact N.
    apply (i_idle s I). intros j t Wj. destruct (Nat.eq_dec j i) as [->|Nj]; [intros X; apply N; auto|].
    apply (H j t). rewrite set_other by exact Nj. exact Wj.
  - intros j l a b Wj Wl E. destruct (Nat.eq_dec j i) as [->|Nj]; [rewrite set_same in Wj; destruct Ww; congruence|].
    destruct (Nat.eq_dec l i) as [->|Nl]; [rewrite set_same in Wl; destruct Ww; congruence|].
    rewrite set_other in Wj, Wl by assumption. exact (i_apart s I j l a b Wj Wl E).
  - intros Em j Wj l L.
    assert (X : s_workers s j <> Waiting).
    { destruct (Nat.eq_dec j i) as [->|Nj]; [rewrite W; discriminate|]. rewrite set_other in Wj by exact Nj. exact Wj. }
    pose proof (i_turn s I Em j X l L) as Y. destruct (Nat.eq_dec l i) as [->|Nl]; [congruence|]. rewrite set_other by exact Nl. exact Y.
  - intros j H. destruct (Nat.eq_dec j i) as [->|Nj]; [apply (i_below s I); rewrite W; discriminate|].
    rewrite set_other in H by exact Nj. exact (i_below s I j H).
  - intros j H. destruct (Nat.eq_dec j i) as [->|Nj].
    + rewrite set_same in H. destruct H as [H|(t & H)]; destruct Ww; congruence.
    + rewrite set_other in H by exact Nj. rewrite Ho by exact Nj. exact (i_waiting s I j H).
  - intros j H. destruct (Nat.eq_dec j i) as [->|Nj].
    + rewrite set_same in H. apply Hl. exact H.
    + rewrite set_other in H by exact Nj. rewrite Ho by exact Nj. exact (i_loaded s I j H).
  - intros j. destruct (Nat.eq_dec j i) as [->|Nj]; [exact Hi|]. rewrite Ho by exact Nj. exact (i_any s I j).
Qed.
(** A file that does not begin. *)
Lemma give_up_inv s i : inv s -> s_workers s i = Waiting -> may_begin m n s i = true -> inv (become s i Failed).
Proof.
  intros I W T. unfold become. constructor; cbn [s_workers s_open s_committed].
  - intros j t Wj. destruct (Nat.eq_dec j i) as [->|N]; [rewrite set_same in Wj; discriminate|]. rewrite set_other in Wj by exact N.
    exact (i_tx s I j t Wj).
  - intros k H. apply (i_idle s I). intros j t Wj. apply (H j t). destruct (Nat.eq_dec j i) as [->|N]; [congruence|]. rewrite set_other by exact N. exact Wj.
  - intros j l a b Wj Wl E. destruct (Nat.eq_dec j i) as [->|Nj]; [rewrite set_same in Wj; discriminate|].
    destruct (Nat.eq_dec l i) as [->|Nl]; [rewrite set_same in Wl; discriminate|].
    rewrite set_other in Wj, Wl by assumption. exact (i_apart s I j l a b Wj Wl E).
  - intros Em j Wj l L.
    assert (Y : l <> i -> s_workers s l = Loaded).
    { intros Nl. destruct (Nat.eq_dec j i) as [->|Nj].
      - unfold may_begin in T. rewrite Em in T. apply andb_true_iff in T. destruct T as [_ T]. rewrite forallb_forall in T.
        specialize (T l). destruct (s_workers s l); try reflexivity; exfalso; cbn in T; discriminate T; apply in_seq; lia.
      - rewrite set_other in Wj by exact Nj. exact (i_turn s I Em j Wj l L). }
    destruct (Nat.eq_dec l i) as [->|Nl]; [|rewrite set_other by exact Nl; exact (Y Nl)].
    exfalso. destruct (Nat.eq_dec j i) as [->|Nj]; [lia|]. rewrite set_other in Wj by exact Nj.
    pose proof (i_turn s I Em j Wj i L). congruence.
  - intros j H. destruct (Nat.eq_dec j i) as [->|Nj]; [unfold may_begin in T; apply andb_true_iff in T; apply Nat.ltb_lt; apply T|].
    rewrite set_other in H by exact Nj. exact (i_below s I j H).
  - intros j H. destruct (Nat.eq_dec j i) as [->|Nj].
    + rewrite set_same in H. destruct H as [H|(t & H)]; discriminate.
    + rewrite set_other in H by exact Nj. exact (i_waiting s I j H).
  - intros j H. destruct (Nat.eq_dec j i) as [->|Nj]; [rewrite set_same in H; discriminate|]. rewrite set_other in H by exact Nj. exact (i_loaded s I j H).
  - exact (i_any s I).
Qed.
(** A file that begins or goes on. *)
Lemma work_inv s i done todo : inv s ->
  (s_workers s i = Waiting /\ may_begin m n s i = true \/ exists t, s_workers s i = Working t) ->
  files i = done ++ todo ->
  inv (become (with_open s (connection m i) (Some done) (s_committed s)) i (Working todo)).
Proof.
  intros I W F. unfold become, with_open.
  assert (Free : forall j t, j <> i -> s_workers s j = Working t -> connection m j <> connection m i).
  { intros j t N Wj E. destruct W as [[W T]|(t' & W)].
    - pose proof (turn_free s i I W T) as Z. destruct (i_tx s I j t Wj) as (d & X & _). rewrite E in X. congruence.
    - apply N. exact (i_apart s I j i t t' Wj W E). }
  constructor; cbn [s_workers s_open s_committed].
  - intros j t Wj. destruct (Nat.eq_dec j i) as [->|N].
    + rewrite set_same in Wj. injection Wj as <-. exists done. rewrite set_same. auto.
    + rewrite set_other in Wj by exact N. destruct (i_tx s I j t Wj) as (d & X & Y). exists d. split; [|exact Y].
      rewrite set_other; [exact X|]. exact (Free j t N Wj).
  - intros k H. assert (N : k <> connection m i) by (intros ->; apply (H i todo); [apply set_same|reflexivity]).
    rewrite set_other by exact N. apply (i_idle s I). intros j t Wj. destruct (Nat.eq_dec j i) as [->|Nj]; [intros X; apply N; auto|].
    apply (H j t). rewrite set_other by exact Nj. exact Wj.
  - intros j l a b Wj Wl E. destruct (Nat.eq_dec j i) as [->|Nj]; destruct (Nat.eq_dec l i) as [->|Nl]; [reflexivity| | |].
    + rewrite set_other in Wl by exact Nl. exfalso. apply (Free l b Nl Wl). symmetry. exact E.
    + rewrite set_other in Wj by exact Nj. exfalso. exact (Free j a Nj Wj E).
    + rewrite set_other in Wj, Wl by assumption. exact (i_apart s I j l a b Wj Wl E).
  - intros Em j Wj l L.
    assert (Y : l <> i -> s_workers s l = Loaded).
    { intros Nl. destruct (Nat.eq_dec j i) as [->|Nj].
      - destruct W as [[W T]|(t & W)].
        + unfold may_begin in T. rewrite Em in T. apply andb_true_iff in T. destruct T as [_ T]. rewrite forallb_forall in T.
          specialize (T l). destruct (s_workers s l); try reflexivity; exfalso; cbn in T; discriminate T; apply in_seq; lia.
        + apply (i_turn s I Em i); [rewrite W; discriminate|exact L].
      - rewrite set_other in Wj by exact Nj. exact (i_turn s I Em j Wj l L). }
    destruct (Nat.eq_dec l i) as [->|Nl]; [|rewrite set_other by exact Nl; exact (Y Nl)].
    exfalso. destruct (Nat.eq_dec j i) as [->|Nj]; [lia|]. rewrite set_other in Wj by exact Nj.
    pose proof (i_turn s I Em j Wj i L). destruct W as [[W _]|(t & W)]; congruence.
  - intros j H. destruct (Nat.eq_dec j i) as [->|Nj]; [destruct W as [[W T]|(t & W)]; [unfold may_begin in T; apply andb_true_iff in T; apply Nat.ltb_lt; apply T|apply (i_below s I); rewrite W; discriminate]|].
    rewrite set_other in H by exact Nj. exact (i_below s I j H).
  - intros j H. destruct (Nat.eq_dec j i) as [->|Nj].
    + apply (i_waiting s I i). destruct W as [[W _]|(t & W)]; eauto.
    + rewrite set_other in H by exact Nj. exact (i_waiting s I j H).
  - intros j H. destruct (Nat.eq_dec j i) as [->|Nj]; [rewrite set_same in H; discriminate|]. rewrite set_other in H by exact Nj. exact (i_loaded s I j H).
  - exact (i_any s I).
Qed.
Lemma committed_now s i done : inv s -> s_workers s i = Working [] -> s_open s (connection m i) = Some done -> files i = done ++ [] ->
  of_file i (s_committed s ++ done) = files i /\ (forall j, j <> i -> of_file j (s_committed s ++ done) = of_file j (s_committed s)).
Proof.
  intros I W E F. rewrite app_nil_r in F.
  assert (O : forall w, In w done -> fst w = i) by (intros w J; apply Own; rewrite F; exact J). split.
  - rewrite of_file_app, (i_waiting s I i) by eauto. rewrite of_file_own by exact O. symmetry. exact F.
  - intros j N. rewrite of_file_app, (of_file_other j i done N O). apply app_nil_r.
Qed.
Lemma inv_step s e : inv s -> inv (step m r files n s e).
Proof.
  intros I. destruct e as [i|i done|i]; cbn [step].
  - destruct (s_workers s i) as [|todo| |] eqn:W; try exact I.
    + destruct (may_begin m n s i) eqn:T; [|exact I]. unfold begin_tx. rewrite (turn_free s i I W T).
      apply work_inv; [exact I|left; auto|reflexivity].
    + destruct (i_tx s I i todo W) as (d & E & F). destruct todo as [|w todo].
      * unfold commit. rewrite E. destruct (committed_now s i d I W E F) as [C1 C2].
        apply (stop_inv s i []); auto.
      * unfold exec. rewrite E. apply work_inv; [exact I|right; eauto|]. rewrite F, <- app_assoc. reflexivity.
  - destruct (s_workers s i) as [|todo| |] eqn:W; try exact I.
    + destruct (may_begin m n s i) eqn:T; [|exact I]. apply give_up_inv; assumption.
    + assert (R : inv (become (rollback m s i) i Failed)).
      { unfold rollback. apply (stop_inv s i todo); auto; try discriminate. left. apply (i_waiting s I). eauto. }
      destruct todo as [|w todo]; [|exact R]. destruct done; [|exact R].
      destruct (i_tx s I i [] W) as (d & E & F). unfold commit. rewrite E. destruct (committed_now s i d I W E F) as [C1 C2].
      apply (stop_inv s i []); auto.
  - destruct (s_workers s i) as [|todo| |] eqn:W; try exact I.
    + destruct (may_begin m n s i) eqn:T; [|exact I]. apply give_up_inv; assumption.
    + unfold rollback. apply (stop_inv s i todo); auto; try discriminate. left. apply (i_waiting s I). eauto.
Qed.
Lemma inv_run es s : inv s -> inv (fold_left (step m r files n) es s).
Proof. revert s. induction es as [|e es IH]; intros s I; [exact I|]. apply IH. apply inv_step. exact I. Qed.
(** A file fails only when a call fails or the context is cancelled. *)
Lemma failed_run es s : inv s -> (forall i, s_workers s i <> Failed) -> forallb is_good es = true ->
  forall i, s_workers (fold_left (step m r files n) es s) i <> Failed.
Proof.
  revert s. induction es as [|e es IH]; intros s I N G; [exact N|]. cbn [forallb fold_left] in *. apply andb_true_iff in G. destruct G as [Ge G].
  apply IH; [apply inv_step; exact I| |exact G]. destruct e as [i| |]; try discriminate. cbn [step]. intros j.
  assert (X : forall s' w, (forall j, s_workers s' j = s_workers s j) -> w <> Failed -> s_workers (become s' i w) j <> Failed).
  { intros s' w H Nw. unfold become. cbn [s_workers]. destruct (Nat.eq_dec j i) as [->|Nj]; [rewrite set_same; exact Nw|].
    rewrite set_other by exact Nj. rewrite H. apply N. }
  destruct (s_workers s i) as [|todo| |] eqn:W; try apply N.
  - destruct (may_begin m n s i) eqn:T; [|apply N]. unfold begin_tx. rewrite (turn_free s i I W T). apply X; [reflexivity|discriminate].
  - destruct (i_tx s I i todo W) as (d & E & F). destruct todo as [|w todo].
    + unfold commit. rewrite E. apply X; [reflexivity|discriminate].
    + unfold exec. rewrite E. apply X; [reflexivity|discriminate].
Qed.
End Proof.

Lemma claim_of d src r files n es : own_writes files -> mode_of src d <> OneConnection \/ n <= 1 ->
  C85_at d src r files n es.
Proof.
  intros Own Hm. unfold C85_at. set (s := after_events _ _ _ _ _).
  assert (I : inv (mode_of src d) files n s) by (apply inv_run; [exact Hm|exact Own|apply inv_start]).
  split; [intros i _; exact (i_any _ _ _ s I i)|]. split; [exact (i_loaded _ _ _ s I)|].
  intros i F. destruct (forallb is_good es) eqn:G.
  - exfalso. refine (failed_run (mode_of src d) r files n Hm Own es start (inv_start _ _ _) _ G i F). intros j. discriminate.
  - assert (X : existsb (fun e => negb (is_good e)) es = true).
    { clear -G. induction es as [|e es IH]; [discriminate|]. cbn in *. destruct (is_good e); [cbn in *; auto|reflexivity]. }
    apply existsb_exists in X. destruct X as (e & J & E). exists e. split; [exact J|]. apply negb_true_iff. exact E.
Qed.

(** The missing part: zip archives with several CSV files, except in SQLite. *)
Theorem C85_partial d src r files n es : own_writes files -> src <> AZipSource \/ d = SQLite \/ n <= 1 ->
  C85_at d src r files n es.
Proof.
  intros Own H. apply claim_of; [exact Own|].
  destruct H as [H|[H|H]]; [| |right; exact H]; left; destruct src; try contradiction; try discriminate.
  - cbn. destruct (dialect_eqb d SQLite); discriminate.
  - subst d. discriminate.
  - subst d. discriminate.
Qed.

(** ** Zip archives *)
(** Two files of two statements each. *)
Definition two_files (i : nat) : list write := [(i, 0); (i, 1)].
Lemma two_own : own_writes two_files.
Proof. intros i w [<-|[<-|[]]]; reflexivity. Qed.
(** Whatever the database does when a transaction is begun twice, the claim is false. *)
Theorem C85_refuted_every : forall r, exists es,
  let s := after_events OneConnection r two_files 2 es in
  match r with
  | Refuses => s_workers s 1 = Failed /\ forallb is_good es = true
  | _ => exists i, i < 2 /\ of_file i (s_committed s) = [(i, 0)]
  end.
Proof.
  intros [].
  - exists [Succeeds 0; Succeeds 1; Succeeds 1; Succeeds 0; Succeeds 0; Succeeds 0; Fails 1 false].
    exists 1. vm_compute. split; [lia|reflexivity].
  - exists [Succeeds 0; Succeeds 0; Succeeds 1; Fails 0 false]. exists 0. vm_compute. split; [lia|reflexivity].
  - exists [Succeeds 0; Succeeds 1]. vm_compute. split; reflexivity.
Qed.
Theorem C85_refuted : forall d, d <> SQLite -> ~ C85_claim d AZipSource.
Proof.
  intros d Nd H.
  assert (E : mode_of AZipSource d = OneConnection) by (cbn; destruct d; try reflexivity; contradiction).
  destruct (C85_refuted_every Commits) as (es & i & L & P).
  destruct (H Commits two_files 2 es two_own) as [A _]. rewrite E in A. specialize (A i L). rewrite P in A.
  destruct A as [A|A]; discriminate.
Qed.

(** Two files of a directory at the same time: one is loaded, the other one fails in between. *)
Example C85_example :
  let s := after_events (mode_of ADirectorySource Postgres) Refuses two_files 2
             [Succeeds 0; Succeeds 1; Succeeds 1; Succeeds 0; Succeeds 0; Succeeds 0; Fails 1 false] in
  s_committed s = [(0, 0); (0, 1)] /\ s_workers s 0 = Loaded /\ s_workers s 1 = Failed.
Proof. vm_compute. auto. Qed.
Print Assumptions C85_partial.
Print Assumptions C85_refuted.
