(** Proofs about temporary session settings. *)
From Verif Require Import GoStr GoStrFacts ModelSq SqFacts ModelDdl ModelHistory ModelMigrate ModelSession SpecSession.
From Verif Require Import CsvFields CsvTables.

Section Facts.
Context (d : dialect) (fails : nat -> bool).

Lemma get_facts w old w1 : do_get d fails w = (old, w1) ->
  w_var w1 = w_var w /\ w_tx w1 = w_tx w /\ (exists ok, w_log w1 = SGet ok :: w_log w) /\ (old = None \/ (old = Some (w_var w) /\ w_dead w1 = w_dead w))
  /\ (w_tx w = None -> w_dead w1 = w_dead w).
Proof.
  unfold do_get. destruct (fails_now fails w); intros [= <- <-]; cbn; (split; [reflexivity|]; split; [reflexivity|]; split; [eexists; reflexivity|]; split; [auto|]); auto.
  unfold dead_after. intros ->. destruct (dialect_eqb d Postgres), (w_dead w); reflexivity.
Qed.
Lemma set_facts v w ok w1 : do_set d fails v w = (ok, w1) ->
  w_tx w1 = w_tx w /\ w_log w1 = SSet v ok :: w_log w /\ (w_tx w = None -> w_dead w1 = w_dead w)
  /\ (ok = true -> w_var w1 = set_to d v w /\ w_dead w1 = w_dead w) /\ (ok = false -> w_var w1 = w_var w).
Proof.
  unfold do_set. destruct (fails_now fails w); intros [= <- <-]; cbn; repeat split; auto; try discriminate.
  unfold dead_after. intros ->. destruct (dialect_eqb d Postgres), (w_dead w); reflexivity.
Qed.
Lemma set_to_none v w : w_tx w = None \/ d <> SQLite -> set_to d v w = v.
Proof. unfold set_to. intros [->|H]; destruct d; try reflexivity; [contradiction]. Qed.

(** Setting: either it failed and the value is as before, or a restorer for it. *)
Lemma set_session_facts value w r w1 : set_session d fails value w = (r, w1) -> (w_tx w = None \/ d <> SQLite) ->
  w_tx w1 = w_tx w /\ (exists l, calls w w1 l) /\ (w_tx w = None -> w_dead w1 = w_dead w)
  /\ match r with
     | None => w_var w1 = w_var w
     | Some RNothing => w_var w1 = w_var w /\ w_var w = value
     | Some (RRestore old done) => old = w_var w /\ done = false /\ w_var w <> value /\ w_var w1 = value
     end.
Proof.
  unfold set_session. intros H Hd. destruct (do_get d fails w) as [old w0] eqn:G. apply get_facts in G as (G1 & G2 & (gk & G3) & G4 & G5).
  destruct old as [old|].
  - destruct G4 as [D|[[= ->] G4]]; [discriminate D|]. destruct (beqb_spec (w_var w) value) as [E|N].
    + injection H as <- <-. repeat split; auto. exists [SGet gk]. exact G3.
    + destruct (do_set d fails value w0) as [ok w2] eqn:E. apply set_facts in E as (S1 & S2 & S3 & S4 & S5).
      assert (L : calls w w2 [SSet value ok; SGet gk]) by (unfold calls; rewrite S2, G3; reflexivity).
      destruct ok; injection H as <- <-.
      * destruct (S4 eq_refl) as (S6 & S7). split; [congruence|]. split; [eexists; exact L|]. split; [intros T; rewrite S3 by congruence; auto|].
        repeat split; auto. rewrite S6. apply set_to_none. rewrite G2. exact Hd.
      * specialize (S5 eq_refl). split; [congruence|]. split; [eexists; exact L|]. split; [intros T; rewrite S3 by congruence; auto|]. congruence.
  - injection H as <- <-. repeat split; auto. exists [SGet gk]. exact G3.
Qed.
Lemma restore_facts r w ok r' w1 : restore d fails r w = (ok, r', w1) ->
  w_tx w1 = w_tx w /\ (exists l, calls w w1 l) /\ (w_tx w = None -> w_dead w1 = w_dead w)
  /\ match r with
     | RNothing | RRestore _ true => ok = true /\ r' = r /\ w1 = w
     | RRestore old false => r' = RRestore old true /\ (ok = true -> w_var w1 = set_to d old w /\ w_dead w1 = w_dead w)
         /\ (ok = false -> w_var w1 = w_var w) /\ calls w w1 [SSet old ok]
     end.
Proof.
  destruct r as [|old [|]]; cbn [restore].
  - intros [= <- <- <-]. repeat split; auto. exists []. reflexivity.
  - intros [= <- <- <-]. repeat split; auto. exists []. reflexivity.
  - destruct (do_set d fails old w) as [k w2] eqn:E. intros [= <- <- <-]. apply set_facts in E as (S1 & S2 & S3 & S4 & S5).
    split; [exact S1|]. split; [exists [SSet old k]; exact S2|]. split; [exact S3|]. repeat split; auto; apply S4; assumption.
Qed.
Lemma restore_used r w : (exists old, r = RRestore old true) \/ r = RNothing -> restore d fails r w = (true, r, w).
Proof. intros [(old & ->)| ->]; reflexivity. Qed.
Lemma calls_trans w1 w2 w3 a b : calls w1 w2 a -> calls w2 w3 b -> calls w1 w3 (b ++ a).
Proof. unfold calls. intros -> ->. apply app_assoc. Qed.

Lemma with_setting_restored value b w o w' : tidy b -> fresh w -> (w_var w = value -> leaves_alone b) ->
  with_setting d fails value b w = (o, w') ->
  restored (w_var w) w w' /\ (o = Done -> w_var w' = w_var w) /\ w_tx w' = None.
Proof.
  intros Hb [T0 D0] Hl. unfold with_setting. destruct (set_session d fails value w) as [r w1] eqn:S.
  apply set_session_facts in S; [|auto]. destruct S as (S1 & (ls & S2) & S3 & S4). destruct r as [r|].
  2:{ intros [= <- <-]. split; [left; exact S4|]. split; [discriminate|congruence]. }
  pose proof (Hb w1) as (B1 & B2 & B3). pose proof (fun X => Hl X w1) as B4. destruct (b w1) as [ob w2] eqn:E. cbn [snd] in *.
  assert (T2 : w_tx w2 = None) by congruence.
  assert (C2 : calls w w2 ls) by (unfold calls in *; congruence).
  assert (X : forall ok r' w3, restore d fails r w2 = (ok, r', w3) ->
    restored (w_var w) w w3 /\ (ok = true -> w_var w3 = w_var w) /\ w_tx w3 = None /\ ((exists old, r' = RRestore old true) \/ r' = RNothing)).
  { intros ok r' w3 R. apply restore_facts in R as (R1 & _ & R3 & R4). destruct r as [|old [|]].
    - destruct S4 as [S4 Ev]. destruct R4 as (-> & -> & ->). assert (V : w_var w2 = w_var w) by (rewrite B4 by exact Ev; exact S4).
      split; [left; exact V|]. repeat split; auto.
    - destruct S4 as (_ & D & _). discriminate D.
    - destruct S4 as (-> & _ & _ & _). destruct R4 as (-> & R5 & R6 & R7). destruct ok.
      + destruct (R5 eq_refl) as (V & _). rewrite set_to_none in V by auto. split; [left; exact V|]. repeat split; auto; [congruence|]. left. eauto.
      + split; [right; exists ([SSet (w_var w) false] ++ ls); split; [exact (calls_trans _ _ _ _ _ C2 R7)|left; reflexivity]|].
        split; [discriminate|]. split; [congruence|]. left. eauto. }
  destruct (restore d fails r w2) as [[ok r'] w3] eqn:R. destruct (X ok r' w3 eq_refl) as (X1 & X2 & X3 & X4).
  destruct ob.
  - rewrite restore_used by exact X4. intros [= <- <-]. split; [exact X1|]. split; [destruct ok; [intros _; apply X2; reflexivity|discriminate]|exact X3].
  - intros [= <- <-]. split; [exact X1|]. split; [discriminate|exact X3].
  - intros [= <- <-]. split; [exact X1|]. split; [discriminate|exact X3].
  - intros [= <- <-]. split; [exact X1|]. split; [discriminate|exact X3].
Qed.

(** ** In a transaction *)
Lemma rollback_facts w : w_tx (do_rollback d w) = None /\ (exists l, calls w (do_rollback d w) l)
  /\ (w_tx w = None -> do_rollback d w = w) /\ (forall v, w_tx w = Some v -> w_var (do_rollback d w) = match d with Postgres => v | _ => w_var w end).
Proof.
  unfold do_rollback. destruct (w_tx w) eqn:T.
  - cbn. split; [reflexivity|]. split; [exists [SRollback]; reflexivity|]. split; [discriminate|]. intros v [= <-]. unfold undone. rewrite T. destruct d; reflexivity.
  - split; [exact T|]. split; [exists []; reflexivity|]. split; [auto|discriminate].
Qed.
Lemma commit_facts w ok w1 v : do_commit d fails w = (ok, w1) -> w_tx w = Some v ->
  w_tx w1 = None /\ (exists l, calls w w1 l) /\ w_var w1 = (if ok then w_var w else match d with Postgres => v | _ => w_var w end).
Proof.
  unfold do_commit. intros H T. destruct (fails_now fails w); injection H as <- <-; cbn; (split; [reflexivity|]; split; [eexists [_]; reflexivity|]); [|reflexivity].
  unfold undone. rewrite T. destruct d; reflexivity.
Qed.
(** The end of a transaction in which the value was [x] at the end, and [old] at the beginning. *)
Lemma load_csv_restored value b0 b w o w' : d <> SQLite -> tidy b0 -> tidy b -> fresh w -> leaves_alone b0 -> (w_var w = value -> leaves_alone b) ->
  load_csv d fails value b0 b w = (o, w') ->
  (d = Postgres -> o <> Done -> w_var w' = w_var w) /\ restored (w_var w) w w' /\ (o = Done -> w_var w' = w_var w) /\ w_tx w' = None.
Proof.
  intros Nd Hb0 Hb [T0 D0] Hl0 Hl. unfold load_csv. set (w0 := do_begin w). pose proof (Hb0 w0) as (P1 & P2 & _). pose proof (Hl0 w0) as P3.
  destruct (b0 w0) as [o0 w1] eqn:E0. cbn [snd] in *.
  assert (T1 : w_tx w1 = Some (w_var w)) by (rewrite P1; reflexivity).
  assert (V1 : w_var w1 = w_var w) by (rewrite P3; reflexivity).
  assert (C1 : calls w w1 [SBegin]) by (unfold calls; rewrite P2; reflexivity).
  (* rolling back a state inside the transaction *)
  assert (Rb : forall x l, w_tx x = Some (w_var w) -> calls w x l -> (w_var x = w_var w \/ In (SSet (w_var w) false) l) ->
    (d = Postgres -> w_var (do_rollback d x) = w_var w) /\ restored (w_var w) w (do_rollback d x) /\ w_tx (do_rollback d x) = None).
  { intros x l Tx Cx Vx. destruct (rollback_facts x) as (Q1 & (lq & Q2) & _ & Q4). specialize (Q4 _ Tx). split; [intros Dp; rewrite Q4, Dp; reflexivity|]. split; [|exact Q1].
    destruct Vx as [Vx|Vx].
    - left. rewrite Q4. destruct d; auto.
    - right. exists (lq ++ l). split; [exact (calls_trans _ _ _ _ _ Cx Q2)|]. apply in_or_app. right. exact Vx. }
  assert (Fin : forall (x : world) (l : list sevent) (oo : outcome), oo <> Done -> w_tx x = Some (w_var w) -> calls w x l -> (w_var x = w_var w \/ In (SSet (w_var w) false) l) ->
    (oo, do_rollback d x) = (o, w') ->
    (d = Postgres -> o <> Done -> w_var w' = w_var w) /\ restored (w_var w) w w' /\ (o = Done -> w_var w' = w_var w) /\ w_tx w' = None).
  { intros x l oo No Tx Cx Vx [= <- <-]. destruct (Rb x l Tx Cx Vx) as (A1 & A2 & A3). split; [intros Dp _; exact (A1 Dp)|]. split; [exact A2|]. split; [contradiction|exact A3]. }
  destruct o0; try (apply (Fin w1 [SBegin]); [discriminate|exact T1|exact C1|auto]).
  destruct (set_session d fails value w1) as [r w2] eqn:S. apply set_session_facts in S; [|auto]. destruct S as (S1 & (ls & S2) & _ & S4).
  assert (T2 : w_tx w2 = Some (w_var w)) by congruence. pose proof (calls_trans _ _ _ _ _ C1 S2) as C2.
  destruct r as [r|]; [|apply (Fin w2 (ls ++ [SBegin])); [discriminate|exact T2|exact C2|left; congruence]].
  pose proof (Hb w2) as (B1 & B2 & _). pose proof (fun X => Hl X w2) as B4. destruct (b w2) as [ob w3] eqn:Eb. cbn [snd] in *.
  assert (T3 : w_tx w3 = Some (w_var w)) by congruence. assert (C3 : calls w w3 (ls ++ [SBegin])) by (unfold calls in *; congruence).
  assert (X : forall ok r' w4, restore d fails r w3 = (ok, r', w4) ->
    exists l, calls w w4 l /\ w_tx w4 = Some (w_var w) /\ (w_var w4 = w_var w \/ In (SSet (w_var w) false) l) /\ (ok = true -> w_var w4 = w_var w) /\ ((exists old, r' = RRestore old true) \/ r' = RNothing)).
  { intros ok r' w4 R. apply restore_facts in R as (R1 & _ & _ & R4). destruct r as [|old [|]].
    - destruct S4 as [S4 Ev]. destruct R4 as (-> & -> & ->). assert (V : w_var w3 = w_var w) by (rewrite B4 by congruence; congruence).
      exists (ls ++ [SBegin]). split; [exact C3|]. repeat split; auto.
    - destruct S4 as (_ & D & _). discriminate D.
    - destruct S4 as (-> & _ & _ & _). rewrite V1 in R4. destruct R4 as (-> & R5 & R6 & R7). exists ([SSet (w_var w) ok] ++ (ls ++ [SBegin])). split; [exact (calls_trans _ _ _ _ _ C3 R7)|].
      split; [congruence|]. destruct ok.
      + destruct (R5 eq_refl) as (V & _). rewrite set_to_none in V by auto. split; [auto|]. split; [auto|]. left. eauto.
      + split; [right; left; reflexivity|]. split; [discriminate|]. left. eauto. }
  destruct (restore d fails r w3) as [[ok r'] w4] eqn:R. destruct (X ok r' w4 eq_refl) as (l4 & C4 & T4 & V4 & K4 & U4).
  destruct ob; try (intros Hx; apply (Fin w4 l4) in Hx; [exact Hx|discriminate|exact T4|exact C4|exact V4]).
  destruct ok.
  - destruct (do_commit d fails w4) as [ok' w5] eqn:Cm. destruct (commit_facts _ _ _ _ Cm T4) as (M1 & (lm & M2) & M3). rewrite restore_used by exact U4.
    destruct (rollback_facts w5) as (_ & _ & Q3 & _). rewrite Q3 by exact M1. specialize (K4 eq_refl).
    assert (V5 : w_var w5 = w_var w) by (rewrite M3; destruct ok'; [exact K4|destruct d; auto]).
    intros [= <- <-]. split; [auto|]. split; [left; exact V5|]. split; [auto|exact M1].
  - rewrite restore_used by exact U4. apply (Fin w4 l4); [discriminate|exact T4|exact C4|exact V4].
Qed.

(** ** Calling the restoring function several times *)
Lemma restore_again n r w : (exists old, r = RRestore old true) \/ r = RNothing -> restore_times d fails n r w = (r, w).
Proof. intros U. induction n as [|n IH]; [reflexivity|]. cbn [restore_times]. rewrite restore_used by exact U. exact IH. Qed.
Lemma restore_once n old w r' w' : restore_times d fails (S n) (RRestore old false) w = (r', w') ->
  exists ok, calls w w' [SSet old ok] /\ (fresh w -> ok = true -> w_var w' = old).
Proof.
  cbn [restore_times]. destruct (restore d fails (RRestore old false) w) as [[ok r1] w1] eqn:R. apply restore_facts in R as (_ & _ & _ & -> & R5 & _ & R7).
  rewrite restore_again by eauto. intros [= <- <-]. exists ok. split; [exact R7|]. intros [T _] ->. destruct (R5 eq_refl) as (V & _). rewrite V. apply set_to_none. auto.
Qed.
End Facts.

(** ** Statements *)
Lemma read_string_escape s : (forall a b, s <> a ++ squote :: squote :: b) -> read_string (escape_quote squote s ++ [squote]) = Some s.
Proof.
  intros H. assert (K : forall t, (exists p, s = p ++ t) -> read_string (escape_quote squote t ++ [squote]) = Some t).
  { intros t. induction t as [|c t IH]; intros (p & Hp); [reflexivity|].
    assert (It : read_string (escape_quote squote t ++ [squote]) = Some t) by (apply IH; exists (p ++ [c]); rewrite <- app_assoc; exact Hp).
    cbn [escape_quote]. destruct (ceqb_spec c squote) as [->|N].
    - destruct t as [|y [|z t']].
      + reflexivity.
      + cbn [app read_string]. change (ceqb squote squote) with true. cbv iota. rewrite It. reflexivity.
      + destruct (ceqb_spec y squote) as [->|]; [exfalso; exact (H p (z :: t') Hp)|]. cbn [app read_string]. change (ceqb squote squote) with true. cbv iota.
        rewrite It. reflexivity.
    - cbn [app read_string]. destruct (ceqb_spec c squote); [contradiction|]. rewrite It. reflexivity. }
  apply K. exists []. reflexivity.
Qed.
Lemma escape_plain s : ~ In squote s -> escape_quote squote s = s.
Proof.
  induction s as [|c s IH]; intros H; [reflexivity|]. cbn [escape_quote]. destruct (ceqb_spec c squote) as [->|]; [exfalso; apply H; left; reflexivity|].
  rewrite IH; [reflexivity|]. intros I. apply H. right. exact I.
Qed.
Lemma read_integer z : read_value (Z_dec z) = Some (Z_dec z).
Proof.
  assert (D : forall n, digits_only (N_dec n) = true).
  { intros n. pose proof (N_dec_digits n) as F. pose proof (N_dec_nonempty n) as Ne. destruct (N_dec n) as [|c r]; [contradiction|]. unfold digits_only. apply forallb_forall. apply Forall_forall. exact F. }
  assert (P : forall n, read_value (N_dec n) = Some (N_dec n)).
  { intros n. pose proof (N_dec_digits n) as F. pose proof (N_dec_nonempty n) as Ne. specialize (D n). destruct (N_dec n) as [|c r]; [contradiction|].
    inversion F as [|? ? Hc]; subst. unfold read_value. destruct (ceqb_spec c squote) as [->|]; [discriminate Hc|]. destruct (ceqb_spec c "-"%char) as [->|]; [discriminate Hc|]. rewrite Hc, D. reflexivity. }
  destruct z; unfold Z_dec; [apply P|apply P|]. change (B"-" ++ N_dec (N.pos p)) with ("-"%char :: N_dec (N.pos p)). cbn [read_value].
  change (ceqb "-"%char squote) with false. change (ceqb "-"%char "-"%char) with true. cbv iota. rewrite D. reflexivity.
Qed.
Lemma Z_dec_no_quote z : ~ In squote (Z_dec z).
Proof. intros I. pose proof (Z_dec_chars z) as F. rewrite Forall_forall in F. apply F in I as [H|H]; discriminate H. Qed.
Lemma timeout_not_read s : reported_timeout s -> s <> B"0" -> read_value s = None.
Proof.
  intros [->|(n & u & Hn & Hu & ->)] N; [contradiction|]. destruct n as [|c n]; [discriminate Hn|]. unfold digits_only in Hn. cbn [forallb] in Hn. apply andb_true_iff in Hn as [Hc Hn].
  cbn [app read_value]. destruct (ceqb_spec c squote) as [->|]; [discriminate Hc|]. destruct (ceqb_spec c "-"%char) as [->|]; [discriminate Hc|]. rewrite Hc.
  assert (E : digits_only (c :: n ++ u) = false).
  { unfold digits_only. cbn [forallb]. rewrite forallb_app. cbn [In] in Hu. destruct Hu as [<-|[<-|[<-|[<-|[<-|[]]]]]]; cbn; rewrite ?andb_false_r; reflexivity. }
  rewrite E. reflexivity.
Qed.
Lemma timeout_not_assigned v : reported_timeout v -> v <> B"0" -> ~ assigns (B"SET lock_timeout = ") (set_text (B"SET lock_timeout = %s") v) v.
Proof.
  intros T N (r & E & R). unfold set_text in E. change (cut (B"%s") (B"SET lock_timeout = %s")) with (Some (B"SET lock_timeout = ", @nil ascii)) in E. cbv iota in E.
  apply app_inv_head in E. rewrite app_nil_r in E.
  assert (Q : ~ In squote v).
  { destruct T as [->|(n & u & Hn & Hu & ->)]; [contradiction|]. intros I. apply in_app_or in I as [I|I].
    - destruct n as [|c n]; [destruct I|]. unfold digits_only in Hn. rewrite forallb_forall in Hn. apply Hn in I. discriminate I.
    - cbn [In] in Hu. destruct Hu as [<-|[<-|[<-|[<-|[<-|[]]]]]]; cbn in I; repeat (destruct I as [I|I]; [discriminate I|]); destruct I. }
  rewrite escape_plain in E by exact Q. rewrite <- E in R. rewrite (timeout_not_read v T N) in R. discriminate R.
Qed.
Lemma integers_assigned d setter v : (lock_setter d = Some setter \/ (load_setter d = Some setter /\ d <> Postgres)) -> reported_integer v ->
  exists p, cut (B"%s") setter = Some (p, []) /\ assigns p (set_text setter v) v.
Proof.
  intros H (z & ->). assert (C : exists p, cut (B"%s") setter = Some (p, @nil ascii)).
  { destruct H as [H|[H N]]; destruct d; try discriminate H; try contradiction; injection H as <-; eexists; reflexivity. }
  destruct C as (p & C). exists p. split; [exact C|]. exists (Z_dec z). split; [|apply read_integer].
  unfold set_text. rewrite C. rewrite escape_plain by apply Z_dec_no_quote. rewrite app_nil_r. reflexivity.
Qed.
Lemma timezone_assigned setter v : load_setter Postgres = Some setter -> (forall a b, v <> a ++ squote :: squote :: b) -> assigns (B"SET timezone = ") (set_text setter v) v.
Proof.
  intros Es H. assert (setter = B"SET timezone = '%s'") as -> by (injection Es as <-; reflexivity). exists (squote :: escape_quote squote v ++ [squote]). split.
  - unfold set_text. change (cut (B"%s") (B"SET timezone = '%s'")) with (Some (B"SET timezone = " ++ [squote], [squote])). cbv iota. rewrite <- app_assoc. reflexivity.
  - cbn [read_value]. change (ceqb squote squote) with true. cbv iota. apply read_string_escape. exact H.
Qed.
