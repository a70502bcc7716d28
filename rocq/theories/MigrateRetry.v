(** Operations of a run: transactions, order, retries, panics, undo (C19-C23). *)
From Verif Require Import GoStr GoStrFacts ModelSq SpecSql SqFacts ModelHistory HistoryFacts TrimFacts.
From Verif Require Import ModelMigrate SpecDb SpecMigrate MigrateFacts MigrateTrace MigrateBatch MigrateGroups MigratePlan MigrateSafety MigrateLive.
From Coq Require Import ZifyBool ZifyNat.

Lemma app_split {A} (a b : list A) e t1 t2 : t1 ++ t2 = a ++ e :: b ->
  (exists b1, t1 = a ++ e :: b1 /\ b = b1 ++ t2) \/ (exists a2, t2 = a2 ++ e :: b /\ a = t1 ++ a2).
Proof.
  revert a; induction t1 as [|x t1 IH]; intros a H.
  - right. exists a. split; [exact H|reflexivity].
  - destruct a as [|y a]; cbn in H; injection H as -> H.
    + left. exists t1. split; [reflexivity|congruence].
    + apply IH in H as [(b1 & -> & ->)|(a2 & -> & ->)].
      * left. exists b1. split; reflexivity.
      * right. exists a2. split; reflexivity.
Qed.

(** ** Groups of any run *)
Lemma plan_valid c ms : forall q, q = [] \/ valid_group (c_dialect c) q ->
  Forall (valid_group (c_dialect c)) (fst (plan c ms q)).
Proof.
  induction ms as [|m ms IH]; intros q Hq; cbn [plan].
  - destruct q; cbn [fst]; [constructor|]. constructor; [|constructor]. destruct Hq; [discriminate|assumption].
  - destruct (decide c m) as [| |m']; [apply IH; exact Hq|constructor|].
    destruct (must_flush (c_dialect c) q m') eqn:E.
    + specialize (IH [m'] (or_intror (valid_single _ _))). destruct (plan c ms [m']) as [gs f]. cbn [fst] in *.
      constructor; [|exact IH]. destruct Hq as [->|Hq]; [discriminate|exact Hq].
    + apply IH. right. destruct Hq as [->|Hq]; [apply valid_single|].
      destruct (sharesb (c_dialect c) (m_name m')) eqn:Es.
      * apply sharesb_iff in Es. destruct Hq as [[Hne Hall]|(m0 & -> & Hn)].
        -- left. split; [destruct q; discriminate|]. apply Forall_app. split; [exact Hall|]. constructor; [exact Es|constructor].
        -- exfalso. assert (Ht : must_flush (c_dialect c) [m0] m' = true); [|congruence].
           apply must_flush_valid; [right; exists m0; auto|]. intros [Hx _]. inversion Hx; subst. contradiction.
      * exfalso. assert (Ht : must_flush (c_dialect c) q m' = true); [|congruence].
        apply must_flush_valid; [exact Hq|]. intros [_ Hx]. apply sharesb_iff in Hx. congruence.
Qed.

(** The part of a run after the history has been read. *)
Lemma subseq_refl {A} (l : list A) : subseq l l.
Proof. induction l; constructor; assumption. Qed.
Lemma subseq_empty {A} (l : list A) : subseq [] l.
Proof. induction l; constructor; assumption. Qed.
Lemma subseq_app {A} (a b a' b' : list A) : subseq a a' -> subseq b b' -> subseq (a ++ b) (a' ++ b').
Proof. induction 1; intros Hb; cbn [app]; [exact Hb|apply subseq_keep; auto|apply subseq_drop; auto]. Qed.
Lemma subseq_trans {A} (b c : list A) : subseq b c -> forall a, subseq a b -> subseq a c.
Proof.
  induction 1 as [|x l fs H IH|x l fs H IH]; intros a Ha.
  - exact Ha.
  - inversion Ha; subst; [apply subseq_keep; auto|apply subseq_drop; auto].
  - apply subseq_drop. auto.
Qed.
Lemma subseq_count {A} dec (a b : list A) f : subseq a b -> count_occ dec a f <= count_occ dec b f.
Proof. induction 1 as [|x l fs H IH|x l fs H IH]; cbn [count_occ]; [lia| |]; destruct (dec x f); lia. Qed.
Lemma subseq_In {A} (a b : list A) x : subseq a b -> In x a -> In x b.
Proof. induction 1; cbn; intuition. Qed.

Definition reads (t0 : list event) : Prop := forall e, In e t0 -> fst e = OpEnsure \/ fst e = OpQuery.
Lemma migrate_groups c walk args h rs t o : migrate c walk args h rs = (t, o) ->
  exists t0 t1 gs fin, t = t0 ++ t1 /\ reads t0
    /\ groups_trace c fin gs t1 o /\ Forall (valid_group (c_dialect c)) gs /\ (fin = Done \/ fin = Failed)
    /\ forall files, selected_files c walk args = Some files -> subseq (map m_name (concat gs)) files
         /\ exists kept extra, gs ++ extra = batches (c_dialect c) kept [] /\ subseq (map m_name kept) files.
Proof.
  intros H. apply migrate_migrate_trace in H.
  assert (Hnone : forall files : list bytes, subseq (map m_name (concat [])) files
         /\ exists kept extra, [] ++ extra = batches (c_dialect c) kept [] /\ subseq (map m_name kept) files).
  { intros files. split; [apply subseq_empty|]. exists [], []. split; [reflexivity|apply subseq_empty]. }
  assert (Hkept : forall ms q, exists kept extra,
            fst (plan c ms q) ++ extra = batches (c_dialect c) kept q /\ subseq (map m_name kept) (map m_name ms)).
  { induction ms as [|m ms IH]; intros q; cbn [plan].
    - exists [], []. split; [destruct q; reflexivity|constructor].
    - destruct (decide c m) as [| |m'] eqn:Ed.
      + destruct (IH q) as (kept & extra & E & Hs). exists kept, extra. split; [exact E|]. cbn [map]. apply subseq_drop. exact Hs.
      + exists [], (batches (c_dialect c) [] q). split; [reflexivity|apply subseq_empty].
      + apply decide_ok in Ed as [_ En]. destruct (must_flush (c_dialect c) q m') eqn:Ef.
        * destruct (IH [m']) as (kept & extra & E & Hs). exists (m' :: kept), extra.
          destruct (plan c ms [m']) as [gs fi]. cbn [fst app batches map] in *. rewrite Ef, En, E.
          split; [reflexivity|]. apply subseq_keep. exact Hs.
        * destruct (IH (q ++ [m'])) as (kept & extra & E & Hs). exists (m' :: kept), extra. cbn [batches map]. rewrite Ef, En.
          split; [exact E|]. apply subseq_keep. exact Hs. }
  assert (Hfin : forall ms q, snd (plan c ms q) = Done \/ snd (plan c ms q) = Failed).
  { induction ms as [|m ms IH]; intros q; cbn [plan]; [left; reflexivity|].
    destruct (decide c m); [apply IH|right; reflexivity|]. destruct (must_flush (c_dialect c) q m0); [|apply IH].
    specialize (IH [m0]). destruct (plan c ms [m0]). exact IH. }
  assert (Hcnt : forall ms q, subseq (map m_name (concat (fst (plan c ms q)))) (map m_name (q ++ ms))).
  { induction ms as [|m ms IH]; intros q; cbn [plan].
    - destruct q as [|m q]; cbn [fst concat]; [constructor|]. rewrite !app_nil_r. apply subseq_refl.
    - destruct (decide c m) as [| |m'] eqn:Ed.
      + eapply subseq_trans; [|apply IH]. rewrite !map_app. apply subseq_app; [apply subseq_refl|].
        cbn [map]. apply subseq_drop, subseq_refl.
      + cbn. apply subseq_empty.
      + apply decide_ok in Ed as [_ En]. destruct (must_flush (c_dialect c) q m').
        * specialize (IH [m']). destruct (plan c ms [m']) as [gs fi]. cbn [fst concat app map] in *.
          rewrite !map_app. apply subseq_app; [apply subseq_refl|]. cbn [map] in *. rewrite En in IH. exact IH.
        * specialize (IH (q ++ [m'])). rewrite <- app_assoc in IH. cbn [app] in IH.
          rewrite !map_app in *. cbn [map] in *. rewrite En in IH. exact IH. }
  assert (Hload : forall rows files, map m_name (load_migrations files rows) = files).
  { intros rows. induction files as [|f files IH]; cbn [load_migrations map]; [reflexivity|]. f_equal; [|exact IH].
    destruct (bmem f files); [reflexivity|]. destruct (lookup f (rev rows)) eqn:E; [exact (lookup_name _ _ _ E)|reflexivity]. }
  inversion H as [Hs|files t' o' Hs Hsk Ht|files r Hs Hsk _|files names r l a Hs Hsk Hk Hq
                 |files names r r' t' o' Hs Hsk Hk Hq Hk' Ht]; subst.
  - exists [], [], [], Failed. split; [reflexivity|]. split; [intros e []|]. split; [constructor|]. split; [constructor|].
    split; [right; reflexivity|]. intros; apply Hnone.
  - exists [], t, (fst (plan c (map fresh files) [])), (snd (plan c (map fresh files) [])).
    split; [reflexivity|]. split; [intros e []|]. split; [exact Ht|]. split; [apply plan_valid; left; reflexivity|].
    split; [apply Hfin|]. intros files' Hf. assert (files' = files) by congruence. subst files'.
    specialize (Hcnt (map fresh files) []). cbn [app] in Hcnt. rewrite map_map, map_id in Hcnt. split; [exact Hcnt|].
    destruct (Hkept (map fresh files) []) as (kept & extra & E & Hsb). rewrite map_map, map_id in Hsb. eauto.
  - exists [(OpEnsure, r)], [], [], Failed. split; [reflexivity|]. split; [intros e [<-|[]]; left; reflexivity|].
    split; [constructor|]. split; [constructor|]. split; [right; reflexivity|]. intros; apply Hnone.
  - exists [(OpEnsure, r); (OpQuery, RErr l a)], [], [], Failed. split; [reflexivity|].
    split; [intros e [<-|[<-|[]]]; [left|right]; reflexivity|].
    split; [constructor|]. split; [constructor|]. split; [right; reflexivity|]. intros; apply Hnone.
  - set (ms := load_migrations files (delivered r' (select_rows names h))) in *.
    exists [(OpEnsure, r); (OpQuery, r')], t', (fst (plan c ms [])), (snd (plan c ms [])).
    split; [reflexivity|]. split; [intros e [<-|[<-|[]]]; [left|right]; reflexivity|].
    split; [exact Ht|]. split; [apply plan_valid; left; reflexivity|].
    split; [apply Hfin|]. intros files' Hf. assert (files' = files) by congruence. subst files'.
    specialize (Hcnt ms []). cbn [app] in Hcnt. unfold ms in Hcnt at 2. rewrite Hload in Hcnt. split; [exact Hcnt|].
    destruct (Hkept ms []) as (kept & extra & E & Hsb). unfold ms in Hsb. rewrite Hload in Hsb. eauto.
Qed.

(** ** Transactions around scripts *)
Definition next_open (b : bool) (e : event) : bool :=
  match fst e with
  | OpBegin => if is_ok (snd e) then true else b
  | OpCommit | OpRollback => false
  | _ => b
  end.
Definition opens (b : bool) (t : list event) : bool := fold_left next_open t b.
Fixpoint bracketed (P : bytes -> bool) (b : bool) (t : list event) : Prop :=
  match t with
  | [] => True
  | e :: t' =>
      match fst e with OpExec f _ => P f = b | OpUndo _ _ => b = false | OpBegin => b = false | _ => True end
      /\ bracketed P (next_open b e) t'
  end.

Lemma opens_working t : forall st, (working (interp st t) <> None) <-> opens (match working st with Some _ => true | None => false end) t = true.
Proof.
  induction t as [|[o r] t IH]; intros st.
  - cbn. destruct (working st); split; congruence.
  - change (interp st ((o, r) :: t)) with (interp (step st (o, r)) t). rewrite IH.
    cbn [opens fold_left]. fold (opens (next_open (match working st with Some _ => true | None => false end) (o, r)) t).
    replace (match working (step st (o, r)) with Some _ => true | None => false end)
      with (next_open (match working st with Some _ => true | None => false end) (o, r)); [reflexivity|].
    destruct st as [cm [w|]], o, r as [|[|] [|]|k]; reflexivity.
Qed.

Lemma opens_app b t1 t2 : opens b (t1 ++ t2) = opens (opens b t1) t2.
Proof. apply fold_left_app. Qed.
Lemma bracketed_app P t1 : forall b t2, bracketed P b (t1 ++ t2) <-> bracketed P b t1 /\ bracketed P (opens b t1) t2.
Proof.
  induction t1 as [|e t1 IH]; intros b t2; cbn [app bracketed]; [cbn; tauto|].
  rewrite IH. cbn [opens fold_left]. unfold opens. tauto.
Qed.

Definition in_txb (d : dialect) (f : bytes) : bool := is_tx d [fresh f].
Lemma in_txb_iff d f : in_txb d f = true <-> in_transaction d f.
Proof. unfold in_txb. rewrite is_tx_single. reflexivity. Qed.

Lemma loop_bracketed c (tx : bool) done q t res : loop_trace c tx done q t res ->
  (forall m, In m q -> in_txb (c_dialect c) (m_name m) = tx) ->
  bracketed (in_txb (c_dialect c)) tx t /\ opens tx t = false.
Proof.
  assert (Hb : forall b, rolled tx b -> bracketed (in_txb (c_dialect c)) tx b /\ opens tx b = false)
    by (intros b; inversion 1; split; cbn; auto).
  induction 1; intros Hq; cbn [bracketed opens fold_left fst next_open]; subst; fold (opens).
  - auto.
  - auto.
  - auto.
  - apply Hb. assumption.
  - destruct (Hb b) as [B1 B2]; [assumption|]. split; [split; [apply Hq; left; reflexivity|exact B1]|exact B2].
  - destruct IHloop_trace as [B1 B2]; [intros; apply Hq; right; assumption|].
    split; [split; [apply Hq; left; reflexivity|exact B1]|exact B2].
  - destruct IHloop_trace as [B1 B2]; [intros; apply Hq; right; assumption|].
    split; [split; [apply Hq; left; reflexivity|split; [exact I|exact B1]]|exact B2].
  - destruct (Hb b) as [B1 B2]; [assumption|].
    split; [split; [apply Hq; left; reflexivity|split; [exact I|exact B1]]|exact B2].
Qed.

Definition uniform (c : config) (q : list migration) : Prop :=
  forall m, In m q -> in_txb (c_dialect c) (m_name m) = is_tx (c_dialect c) q.
Lemma valid_uniform c q : valid_group (c_dialect c) q -> uniform c q.
Proof.
  intros H m Hm. destruct (valid_is_tx _ _ H) as [[-> Hall]|(-> & m' & -> & Hn)].
  - rewrite Forall_forall in Hall. apply in_txb_iff, Hall. exact Hm.
  - destruct Hm as [->|[]]. destruct (in_txb (c_dialect c) (m_name m)) eqn:E; [|reflexivity].
    apply in_txb_iff in E. contradiction.
Qed.
Lemma uniform_key c q q' : map key q' = map key q -> uniform c q -> uniform c q'.
Proof.
  intros E H m Hm. rewrite (key_is_tx _ _ _ E). apply key_names in E.
  assert (Hi : In (m_name m) (map m_name q)) by (rewrite <- E; apply in_map; exact Hm).
  apply in_map_iff in Hi as (m' & En & Hm'). rewrite <- En. apply H. exact Hm'.
Qed.

Lemma run_bracketed c q t res : run_trace c q t res -> uniform c q ->
  bracketed (in_txb (c_dialect c)) false t /\ opens false t = false.
Proof.
  inversion 1 as [l a Ht|r t' res' Ht Hk Hl|t' res' Ht Hl]; subst; intros Hu; unfold uniform in Hu; rewrite Ht in Hu.
  - cbn. auto.
  - apply loop_bracketed in Hl as [B1 B2]; [|exact Hu]. cbn [bracketed fst next_open snd opens fold_left].
    rewrite Hk. auto.
  - eapply loop_bracketed; eassumption.
Qed.

Lemma undone_bracketed P c re q u : undone c re q u -> bracketed P false u /\ opens false u = false.
Proof. inversion 1; subst; cbn; auto. Qed.

Lemma retry_bracketed c re k q t o : retry_trace c re k q t o -> uniform c q ->
  bracketed (in_txb (c_dialect c)) false t /\ opens false t = false.
Proof.
  induction 1 as [k q t n q' Hr|k q t n q' Hr _ _ _|k q t n q' Hr _ _ _ _|k q t n q' r Hr Hre Hd Hk Hn Hneg
                  |k q t n q' r r' t' o Hr Hre Hd Hk Hn Hneg Ht IH|k q t n l q' u Hr Hl Hu Hq|k q t n l q' u r Hr Hl Hu Hn Hs];
    intros Huq; destruct (run_bracketed _ _ _ _ Hr Huq) as [B1 B2]; auto.
  - rewrite bracketed_app, opens_app, B2. cbn. auto.
  - rewrite bracketed_app, opens_app, B2. cbn [bracketed fst next_open opens fold_left]. fold (opens false t').
    destruct IH as [I1 I2]; [|auto]. eapply uniform_key; [|exact Huq]. apply (run_trace_shape _ _ _ _ _ _ Hr).
  - apply (undone_bracketed (in_txb (c_dialect c))) in Hu as [U1 U2]. rewrite bracketed_app, opens_app, B2. auto.
  - apply (undone_bracketed (in_txb (c_dialect c))) in Hu as [U1 U2]. rewrite bracketed_app, opens_app, B2.
    rewrite bracketed_app, opens_app, U2. cbn. auto.
Qed.

Lemma groups_bracketed c fin gs t o : groups_trace c fin gs t o -> Forall (valid_group (c_dialect c)) gs ->
  bracketed (in_txb (c_dialect c)) false t /\ opens false t = false.
Proof.
  assert (Hb : forall g t o, batch_trace c g t o -> valid_group (c_dialect c) g ->
     bracketed (in_txb (c_dialect c)) false t /\ opens false t = false).
  { intros g t0 o0 Hb Hv. apply valid_uniform in Hv. inversion Hb; subst; [|cbn; auto|]; eapply retry_bracketed; eassumption. }
  induction 1 as [|g gs t t' o Hg Hgs IH|g gs t o Hg Hne]; intros Hv.
  - cbn. auto.
  - inversion Hv; subst. destruct (Hb _ _ _ Hg) as [B1 B2]; [assumption|].
    rewrite bracketed_app, opens_app, B2. destruct IH as [I1 I2]; [assumption|auto].
  - inversion Hv; subst. eapply Hb; eassumption.
Qed.

Lemma reads_bracketed P t0 : reads t0 -> bracketed P false t0 /\ opens false t0 = false.
Proof.
  induction t0 as [|[o r] t0 IH]; intros H; [cbn; auto|].
  destruct IH as [I1 I2]; [intros e He; apply H; right; exact He|].
  destruct (H (o, r) (or_introl eq_refl)) as [E|E]; cbn in E; subst o; cbn [bracketed opens fold_left fst next_open]; auto.
Qed.

Lemma migrate_bracketed c walk args h rs t o : migrate c walk args h rs = (t, o) ->
  bracketed (in_txb (c_dialect c)) false t /\ opens false t = false.
Proof.
  intros H. destruct (migrate_groups _ _ _ _ _ _ _ H) as (t0 & t1 & gs & fin & -> & Hr & Hg & Hv & _).
  destruct (reads_bracketed (in_txb (c_dialect c)) t0 Hr) as [B1 B2].
  rewrite bracketed_app, opens_app, B2. destruct (groups_bracketed _ _ _ _ _ Hg Hv). auto.
Qed.

(** C20, for any run: scripts are executed inside a transaction exactly if they should be. *)
Lemma exec_in_transaction c walk args s rs t o a f x r b :
  migrate c walk args (hist s) rs = (t, o) -> t = a ++ (OpExec f x, r) :: b ->
  (working (interp (start s) a) <> None <-> in_transaction (c_dialect c) f).
Proof.
  intros H ->. apply migrate_bracketed in H as [H _]. apply bracketed_app in H as [_ H].
  cbn [bracketed fst] in H. destruct H as [H _]. rewrite opens_working. cbn [working start].
  rewrite <- H. apply in_txb_iff.
Qed.
Lemma undo_outside c walk args s rs t o a f x r b :
  migrate c walk args (hist s) rs = (t, o) -> t = a ++ (OpUndo f x, r) :: b ->
  working (interp (start s) a) = None.
Proof.
  intros H ->. apply migrate_bracketed in H as [H _]. apply bracketed_app in H as [_ H].
  cbn [bracketed fst] in H. destruct H as [H _].
  destruct (working (interp (start s) a)) eqn:E; [|reflexivity].
  assert (Hx : opens false a = true) by (apply (opens_working a (start s)); congruence). congruence.
Qed.
Lemma tx_closed c walk args s rs t o : migrate c walk args (hist s) rs = (t, o) ->
  working (interp (start s) t) = None.
Proof.
  intros H. apply migrate_bracketed in H as [_ H].
  destruct (working (interp (start s) t)) eqn:E; [|reflexivity].
  assert (Hx : opens false t = true) by (apply (opens_working t (start s)); congruence). congruence.
Qed.

(** ** A run without errors *)
Definition okt (t : list event) : Prop := Forall (fun e => is_ok (snd e) = true) t.
Lemma all_ok_iff t : all_ok t <-> okt t.
Proof.
  unfold all_ok, okt. rewrite Forall_forall. split.
  - intros H [o r] He. apply (H o r He).
  - intros H o r He. apply (H (o, r) He).
Qed.

Lemma loop_ok c (tx : bool) rows done q t res : loop_trace c tx done q t res -> okt t ->
  (forall m, In m q -> readable c (m_name m) /\ rows (m_name m) = success_row m) ->
  map fst t = flat_map (applies c rows) (map m_name q) ++ (if tx then [OpCommit] else [])
  /\ snd (fst res) = None.
Proof.
  induction 1 as [done r Ht Hk|done l a Ht|done Ht|done m rest b Hd Hb|done m rest x l a b Hd Hb
                 |done m rest x r t res Hd Hk Hs Hl IH|done m rest x r r' t res Hd Hk Hs Hk' Hl IH
                 |done m rest x r l a b Hd Hk Hs Hb]; intros Ho Hq.
  - subst. cbn. auto.
  - inversion Ho; discriminate.
  - subst. cbn. auto.
  - exfalso. destruct (Hq m (or_introl eq_refl)) as [Hr _]. contradiction.
  - inversion Ho; discriminate.
  - inversion Ho; subst. destruct IH as [I1 I2]; [assumption|intros; apply Hq; right; assumption|].
    split; [|exact I2]. cbn [map fst flat_map]. rewrite I1. unfold applies at 2. rewrite Hd, Hs. reflexivity.
  - inversion Ho as [|? ? H1 H2]; subst. inversion H2; subst.
    destruct IH as [I1 I2]; [assumption|intros; apply Hq; right; assumption|].
    split; [|exact I2]. cbn [map fst flat_map]. rewrite I1. unfold applies at 2. rewrite Hd, Hs.
    destruct (Hq m (or_introl eq_refl)) as [_ ->]. reflexivity.
  - inversion Ho as [|? ? H1 H2]; subst. inversion H2; discriminate.
Qed.

Lemma run_ok c rows q t res : run_trace c q t res -> okt t ->
  (forall m, In m q -> readable c (m_name m) /\ rows (m_name m) = success_row m) ->
  map fst t = (if is_tx (c_dialect c) q then [OpBegin] else []) ++ flat_map (applies c rows) (map m_name q)
     ++ (if is_tx (c_dialect c) q then [OpCommit] else [])
  /\ snd (fst res) = None.
Proof.
  inversion 1 as [l a Ht|r t' res' Ht Hk Hl|t' res' Ht Hl]; subst; intros Ho Hq; rewrite Ht.
  - inversion Ho; discriminate.
  - inversion Ho; subst. destruct (loop_ok _ _ rows _ _ _ _ Hl) as [I1 I2]; [assumption|exact Hq|].
    split; [|exact I2]. cbn [map fst app]. rewrite I1. reflexivity.
  - destruct (loop_ok _ _ rows _ _ _ _ Hl) as [I1 I2]; [assumption|exact Hq|]. split; [exact I1|exact I2].
Qed.

Lemma batch_ok c rows q t o : batch_trace c q t o -> okt t ->
  (forall m, In m q -> readable c (m_name m) /\ rows (m_name m) = success_row m) ->
  map fst t = (if is_tx (c_dialect c) q then [OpBegin] else []) ++ flat_map (applies c rows) (map m_name q)
     ++ (if is_tx (c_dialect c) q then [OpCommit] else [])
  /\ o = Done.
Proof.
  assert (Hre : forall re k t o, retry_trace c re k q t o -> okt t ->
    (forall m, In m q -> readable c (m_name m) /\ rows (m_name m) = success_row m) ->
    map fst t = (if is_tx (c_dialect c) q then [OpBegin] else []) ++ flat_map (applies c rows) (map m_name q)
       ++ (if is_tx (c_dialect c) q then [OpCommit] else []) /\ o = Done).
  { intros re k t0 o0 H Ho Hq.
    assert (Hx : forall t l n q', run_trace c q t (n, Some l, q') -> okt t -> False).
    { intros t1 l n q' Hr Hk. apply (run_ok _ rows) in Hr as [_ Hr]; [discriminate|exact Hk|exact Hq]. }
    inversion H as [k0 q0 t1 n q' Hr|k0 q0 t1 n q' Hr|k0 q0 t1 n q' Hr|k0 q0 t1 n q' r Hr|k0 q0 t1 n q' r r' t' o' Hr
                   |k0 q0 t1 n l q' u Hr|k0 q0 t1 n l q' u r Hr]; subst;
      try (exfalso; eapply Hx; [exact Hr|]; unfold okt in *; try rewrite Forall_app in Ho; tauto).
    split; [|reflexivity]. apply (run_ok _ rows) in Hr as [Hr _]; assumption. }
  inversion 1; subst; intros Ho Hq.
  - eapply Hre; eassumption.
  - exfalso. destruct q as [|m0 q]; [discriminate|]. injection H1 as ->.
    destruct (Hq m (or_introl eq_refl)) as [Hr _]. contradiction.
  - eapply Hre; eassumption.
Qed.

Lemma groups_ok c rows gs t o : groups_trace c Done gs t o -> okt t ->
  Forall (valid_group (c_dialect c)) gs ->
  (forall m, In m (concat gs) -> readable c (m_name m) /\ rows (m_name m) = success_row m) ->
  group_ops c rows (map (map m_name) gs) (map fst t) /\ o = Done.
Proof.
  induction 1 as [|g gs t t' o Hg Hgs IH|g gs t o Hg Hne]; intros Ho Hv Hq.
  - split; [constructor|reflexivity].
  - inversion Hv as [|? ? Hv1 Hv2]; subst. apply Forall_app in Ho as [Ho1 Ho2].
    destruct (batch_ok _ rows _ _ _ Hg Ho1) as [E _]; [intros m Hm; apply Hq; cbn; apply in_or_app; left; exact Hm|].
    destruct IH as [I1 I2]; [exact Ho2|exact Hv2|intros m Hm; apply Hq; cbn; apply in_or_app; right; exact Hm|].
    split; [|exact I2]. unfold event in *. rewrite map_app, E. cbn [map].
    destruct (valid_is_tx _ _ Hv1) as [[-> Hall]|(-> & m & -> & Hn)].
    + cbn [app]. rewrite <- app_assoc. cbn [app]. apply group_ops_tx; [apply Forall_map; exact Hall|exact I1].
    + cbn [app]. rewrite app_nil_r. apply group_ops_plain; [constructor; [exact Hn|constructor]|exact I1].
  - inversion Hv as [|? ? Hv1 Hv2]; subst.
    destruct (batch_ok _ rows _ _ _ Hg Ho) as [_ E]; [intros m Hm; apply Hq; cbn; apply in_or_app; left; exact Hm|].
    contradiction.
Qed.

(** ** Errors *)
Lemma rolled_no_exec tx b : rolled tx b -> no_exec b.
Proof. inversion 1; subst; intros f x r0 Hi; cbn in Hi; intuition congruence. Qed.
Lemma no_exec_app a b : no_exec a -> no_exec b -> no_exec (a ++ b).
Proof. intros Ha Hb f x r Hi. apply in_app_or in Hi as [Hi|Hi]; [eapply Ha|eapply Hb]; exact Hi. Qed.
Lemma no_exec_nil : no_exec []. Proof. intros f x r []. Qed.

Lemma rolled_only tx t : rolled tx t -> forall a op r b, t = a ++ (op, r) :: b -> op = OpRollback.
Proof.
  inversion 1 as [r0 Et Eb|Et Eb]; intros a op r b E.
  - destruct a as [|e [|? ?]]; cbn in E; try discriminate. congruence.
  - destruct a; discriminate.
Qed.

(** A failed operation other than a rollback ends the loop. *)
Lemma loop_error c (tx : bool) done q t res : loop_trace c tx done q t res ->
  forall a op l ap b, t = a ++ (op, RErr l ap) :: b -> op <> OpRollback ->
  rolled tx b \/ (b = [] /\ op = OpCommit).
Proof.
  induction 1 as [done r Ht Hk|done l0 a0 Ht|done Ht|done m rest b0 Hd Hb|done m rest x l0 a0 b0 Hd Hb
                 |done m rest x r t res Hd Hk Hs Hl IH|done m rest x r r' t res Hd Hk Hs Hk' Hl IH
                 |done m rest x r l0 a0 b0 Hd Hk Hs Hb]; intros a op l ap b E Ho.
  - destruct a as [|e [|? ?]]; cbn in E; try discriminate. injection E as <- -> <-. discriminate.
  - destruct a as [|e [|? ?]]; cbn in E; try discriminate. injection E as <- -> -> <-. auto.
  - destruct a; discriminate.
  - exfalso. apply Ho. eapply rolled_only; [exact Hb|exact E].
  - destruct a as [|e a]; cbn in E.
    + injection E as <- <- <- <-. left. exact Hb.
    + injection E as <- E. exfalso. apply Ho. eapply rolled_only; [exact Hb|exact E].
  - destruct a as [|e a]; cbn in E.
    + injection E as <- -> _. discriminate.
    + injection E as _ E. eapply IH; [exact E|exact Ho].
  - destruct a as [|e a]; cbn in E.
    + injection E as <- -> _. discriminate.
    + injection E as _ E. destruct a as [|e' a]; cbn in E.
      * injection E as <- -> _. discriminate.
      * injection E as _ E. eapply IH; [exact E|exact Ho].
  - destruct a as [|e a]; cbn in E.
    + injection E as <- -> _. discriminate.
    + injection E as _ E. destruct a as [|e' a]; cbn in E.
      * injection E as <- <- <- <-. left. exact Hb.
      * injection E as _ E. exfalso. apply Ho. eapply rolled_only; [exact Hb|exact E].
Qed.

(** The reported error is that of the failed operation. *)
Lemma loop_error_kind c (tx : bool) done q t res : loop_trace c tx done q t res ->
  forall a op l ap b, t = a ++ (op, RErr l ap) :: b -> op <> OpRollback -> snd (fst res) = Some l.
Proof.
  induction 1 as [done r Ht Hk|done l0 a0 Ht|done Ht|done m rest b0 Hd Hb|done m rest x l0 a0 b0 Hd Hb
                 |done m rest x r t res Hd Hk Hs Hl IH|done m rest x r r' t res Hd Hk Hs Hk' Hl IH
                 |done m rest x r l0 a0 b0 Hd Hk Hs Hb]; intros a op l ap b E Ho.
  - destruct a as [|e [|? ?]]; cbn in E; try discriminate. injection E as <- -> <-. discriminate.
  - destruct a as [|e [|? ?]]; cbn in E; try discriminate. injection E as <- -> -> <-. reflexivity.
  - destruct a; discriminate.
  - exfalso. apply Ho. eapply rolled_only; [exact Hb|exact E].
  - destruct a as [|e a]; cbn in E.
    + injection E as <- <- <- <-. reflexivity.
    + injection E as <- E. exfalso. apply Ho. eapply rolled_only; [exact Hb|exact E].
  - destruct a as [|e a]; cbn in E.
    + injection E as <- -> _. discriminate.
    + injection E as _ E. eapply IH; [exact E|exact Ho].
  - destruct a as [|e a]; cbn in E.
    + injection E as <- -> _. discriminate.
    + injection E as _ E. destruct a as [|e' a]; cbn in E.
      * injection E as <- -> _. discriminate.
      * injection E as _ E. eapply IH; [exact E|exact Ho].
  - destruct a as [|e a]; cbn in E.
    + injection E as <- -> _. discriminate.
    + injection E as _ E. destruct a as [|e' a]; cbn in E.
      * injection E as <- <- <- <-. reflexivity.
      * injection E as _ E. exfalso. apply Ho. eapply rolled_only; [exact Hb|exact E].
Qed.

(** An execution with an error ends the attempt. *)
Lemma run_error c q t res : run_trace c q t res ->
  forall a f x l ap b, t = a ++ (OpExec f x, RErr l ap) :: b ->
  snd (fst res) = Some l /\ rolled (is_tx (c_dialect c) q) b.
Proof.
  inversion 1 as [l0 a0 Ht|r t' res' Ht Hk Hl|t' res' Ht Hl]; subst; intros a f x l ap b E; rewrite Ht.
  - destruct a as [|e [|? ?]]; cbn in E; discriminate.
  - destruct a as [|e a]; cbn in E; [discriminate|]. injection E as _ E.
    split; [eapply loop_error_kind; [exact Hl|exact E|discriminate]|].
    destruct (loop_error _ _ _ _ _ _ Hl _ _ _ _ _ E) as [Hx|[_ Hx]]; [discriminate|exact Hx|discriminate].
  - split; [eapply loop_error_kind; [exact Hl|exact E|discriminate]|].
    destruct (loop_error _ _ _ _ _ _ Hl _ _ _ _ _ E) as [Hx|[_ Hx]]; [discriminate|exact Hx|discriminate].
Qed.

Lemma no_exec_one o r : (forall f x, o <> OpExec f x) -> no_exec [(o, r)].
Proof. intros H f x r0 [E|[]]. injection E as E _. apply (H f x E). Qed.

(** ** C19: nothing is executed after a script that failed for good. *)
Lemma retry_stops c re k q t o : retry_trace c re k q t o ->
  forall a f x l ap b, t = a ++ (OpExec f x, RErr l ap) :: b ->
  re && c_detects_lock c && l = false -> no_exec b /\ o <> Done.
Proof.
  assert (Hu : forall q u, undone c re q u -> no_exec u)
    by (inversion 1; subst; [apply no_exec_nil|apply no_exec_nil|apply no_exec_nil|apply no_exec_one; discriminate]).
  induction 1 as [k q t n q' Hr|k q t n q' Hr Hre Hd _|k q t n q' Hr Hre Hd _ _|k q t n q' r Hr Hre Hd Hk Hn Hneg
                  |k q t n q' r r' t' o Hr Hre Hd Hk Hn Hneg Ht IH|k q t n l0 q' u Hr Hl Hund Hq|k q t n l0 q' u r Hr Hl Hund Hn Hs];
    intros a f x l ap b E Hf.
  - destruct (run_error _ _ _ _ Hr _ _ _ _ _ _ E) as [Hx _]. discriminate.
  - destruct (run_error _ _ _ _ Hr _ _ _ _ _ _ E) as [[= <-] Hb].
    split; [eapply rolled_no_exec; exact Hb|]. destruct (n <? 0)%Z; discriminate.
  - destruct (run_error _ _ _ _ Hr _ _ _ _ _ _ E) as [[= <-] Hb].
    split; [eapply rolled_no_exec; exact Hb|discriminate].
  - apply app_split in E as [(b1 & -> & ->)|(a2 & E & ->)].
    + destruct (run_error _ _ _ _ Hr _ _ _ _ _ _ eq_refl) as [[= <-] Hb]. rewrite Hre, Hd in Hf. discriminate.
    + destruct a2 as [|? [|? ?]]; discriminate.
  - apply app_split in E as [(b1 & -> & ->)|(a2 & E & ->)].
    + destruct (run_error _ _ _ _ Hr _ _ _ _ _ _ eq_refl) as [[= <-] Hb]. rewrite Hre, Hd in Hf. discriminate.
    + destruct a2 as [|? [|? a2]]; try discriminate. injection E as _ _ E. eapply IH; [exact E|exact Hf].
  - split; [|discriminate]. apply app_split in E as [(b1 & -> & ->)|(a2 & E & ->)].
    + destruct (run_error _ _ _ _ Hr _ _ _ _ _ _ eq_refl) as [_ Hb].
      apply no_exec_app; [eapply rolled_no_exec; exact Hb|eapply Hu; exact Hund].
    + exfalso. eapply (Hu _ _ Hund). rewrite E. apply in_or_app. right. left. reflexivity.
  - split; [|discriminate]. assert (Hne : no_exec (u ++ [(OpUpsert (map failure_row (firstn (S (Z.to_nat n)) q')), r)]))
      by (apply no_exec_app; [eapply Hu; exact Hund|apply no_exec_one; discriminate]).
    apply app_split in E as [(b1 & -> & ->)|(a2 & E & ->)].
    + destruct (run_error _ _ _ _ Hr _ _ _ _ _ _ eq_refl) as [_ Hb].
      apply no_exec_app; [eapply rolled_no_exec; exact Hb|exact Hne].
    + exfalso. eapply Hne. rewrite E. apply in_or_app. right. left. reflexivity.
Qed.

Lemma count_semicolon_app a b : count_byte ";"%char (a ++ b) = count_byte ";"%char a + count_byte ";"%char b.
Proof. induction a as [|x a IH]; cbn; [reflexivity|]. rewrite IH. lia. Qed.
Lemma count_semicolon_zero a : count_byte ";"%char a = 0 <-> ~ In ";"%char a.
Proof.
  induction a as [|x a IH]; cbn; [tauto|]. unfold ceqb. destruct (Ascii.eqb_spec x ";"%char) as [->|E].
  - split; [lia|]. intros H. exfalso. apply H. left. reflexivity.
  - split.
    + intros H [Hx|Hx]; [congruence|]. apply IH in Hx; [destruct Hx|lia].
    + intros H. cbn. apply IH. tauto.
Qed.
Lemma spaces_no_semicolon sp : Forall (fun a => is_space a = true) sp -> ~ In ";"%char sp.
Proof. intros H Hi. rewrite Forall_forall in H. apply H in Hi. discriminate. Qed.

Lemma single_statement_iff x : single_statement x = true <-> one_statement x.
Proof.
  unfold single_statement, one_statement. split.
  - intros H. apply andb_true_iff in H as [H1 H2]. apply Nat.eqb_eq in H1.
    destruct (trim_space_sub x) as (a & b & Ex & Ha & Hb).
    destruct (hd_error (rev (trim_space x))) as [y|] eqn:Ey; [|discriminate].
    unfold ceqb in H2. apply Ascii.eqb_eq in H2. subst y.
    destruct (rev (trim_space x)) as [|y z] eqn:Er; [discriminate|]. injection Ey as ->.
    assert (Et : trim_space x = rev z ++ [";"%char]) by (rewrite <- (rev_involutive (trim_space x)), Er; reflexivity).
    rewrite Et in *. exists (a ++ rev z), b. split; [rewrite Ex, <- !app_assoc; reflexivity|]. split; [|exact Hb].
    rewrite count_semicolon_app in H1. cbn in H1. assert (Hz : count_byte ";"%char (rev z) = 0) by lia.
    apply count_semicolon_zero in Hz. intros Hi. apply in_app_or in Hi as [Hi|Hi]; [|contradiction].
    apply (spaces_no_semicolon a Ha Hi).
  - intros (body & sp & -> & Hn & Hsp).
    destruct (trim_space_sub (body ++ ";"%char :: sp)) as (a & b & Ex & Ha & Hb).
    assert (Hc : count_byte ";"%char (trim_space (body ++ ";"%char :: sp)) = 1).
    { pose proof (f_equal (count_byte ";"%char) Ex) as Hc. rewrite !count_semicolon_app in Hc. cbn [count_byte] in Hc.
      apply count_semicolon_zero in Hn. pose proof (spaces_no_semicolon _ Hsp) as N1. pose proof (spaces_no_semicolon _ Ha) as N2.
      pose proof (spaces_no_semicolon _ Hb) as N3. apply count_semicolon_zero in N1, N2, N3.
      change (ceqb ";" ";") with true in Hc. cbn [Nat.add] in Hc. lia. }
    rewrite Hc. cbn [Nat.eqb andb].
    destruct (trim_space_trimmed (body ++ ";"%char :: sp)) as [_ Ht].
    set (t := trim_space (body ++ ";"%char :: sp)) in *.
    destruct (rev t) as [|y z] eqn:Er.
    + assert (t = []) by (rewrite <- (rev_involutive t), Er; reflexivity). rewrite H in Hc. discriminate.
    + cbn [hd_error]. assert (Et : t = rev z ++ [y]) by (rewrite <- (rev_involutive t), Er; reflexivity).
      unfold ceqb. apply Ascii.eqb_eq.
      assert (Hy : is_space y = false).
      { unfold TrimFacts.clean in Ht. cbn in Ht. exact Ht. }
      assert (Hlast : rev b ++ rev t ++ rev a = rev sp ++ ";"%char :: rev body).
      { pose proof (f_equal (@rev ascii) Ex) as E. rewrite !rev_app_distr in E. cbn [rev] in E.
        rewrite <- !app_assoc in E. cbn [app] in E. symmetry. exact E. }
      rewrite Er in Hlast. cbn [app] in Hlast.
      assert (Hb' : Forall (fun a => is_space a = true) (rev b)) by (apply Forall_rev; exact Hb).
      assert (Hs' : Forall (fun a => is_space a = true) (rev sp)) by (apply Forall_rev; exact Hsp).
      clear - Hlast Hb' Hs' Hy. revert Hlast Hb' Hs'. generalize (rev b) as u, (rev sp) as v.
      induction u as [|p u IH]; intros [|q v] H H1 H2; cbn in H.
      * injection H as -> _. reflexivity.
      * injection H as -> _. inversion H2; congruence.
      * injection H as -> _. inversion H1; discriminate.
      * injection H as _ H. inversion H1; inversion H2; subst. eapply IH; eassumption.
Qed.

Definition may_retry (c : config) (f x : bytes) : Prop := in_transaction (c_dialect c) f \/ one_statement x.

Lemma batch_stops c q t o : batch_trace c q t o -> uniform c q ->
  forall a f x l ap b, t = a ++ (OpExec f x, RErr l ap) :: b ->
  l = false \/ c_detects_lock c = false \/ ~ may_retry c f x -> no_exec b /\ o <> Done.
Proof.
  intros H Hu a f x l ap b E Hc.
  pose proof (batch_trace_events _ _ _ _ H) as Hev. rewrite E in Hev.
  apply Forall_app in Hev as [_ Hev]. inversion Hev as [|? ? He _]; subst. cbn in He. destruct He as [Hin Hx].
  inversion H as [t0 o0 Ht Hr|m Ht Hh Hd|m y t0 o0 Ht Hq Hd Hr]; subst.
  - eapply retry_stops; [exact Hr|reflexivity|]. destruct Hc as [->|[->|Hc]]; [apply andb_false_r|reflexivity|].
    exfalso. apply Hc. left. apply in_txb_iff. apply in_map_iff in Hin as (m & <- & Hm). rewrite (Hu m Hm). exact Ht.
  - destruct a; discriminate.
  - eapply retry_stops; [exact Hr|reflexivity|]. destruct Hc as [->|[->|Hc]]; [apply andb_false_r|rewrite andb_false_r; reflexivity|].
    destruct Hin as [<-|[]]. assert (y = x) by congruence. subst y.
    destruct (single_statement x) eqn:Es; [|reflexivity]. exfalso. apply Hc. right. apply single_statement_iff. exact Es.
Qed.

Lemma groups_stop c fin gs t o : groups_trace c fin gs t o -> Forall (valid_group (c_dialect c)) gs ->
  forall a f x l ap b, t = a ++ (OpExec f x, RErr l ap) :: b ->
  l = false \/ c_detects_lock c = false \/ ~ may_retry c f x -> no_exec b /\ o <> Done.
Proof.
  induction 1 as [|g gs t t' o Hg Hgs IH|g gs t o Hg Hne]; intros Hv a f x l ap b E Hc.
  - destruct a; discriminate.
  - inversion Hv as [|? ? Hv1 Hv2]; subst. apply app_split in E as [(b1 & -> & ->)|(a2 & E & ->)].
    + destruct (batch_stops _ _ _ _ Hg (valid_uniform _ _ Hv1) _ _ _ _ _ _ eq_refl Hc) as [_ Hx]. congruence.
    + eapply IH; eassumption.
  - inversion Hv as [|? ? Hv1 Hv2]; subst. eapply batch_stops; [exact Hg|apply valid_uniform; exact Hv1|reflexivity|exact Hc].
Qed.

Lemma reads_no_exec t0 : reads t0 -> no_exec t0.
Proof. intros H f x r Hi. destruct (H _ Hi); discriminate. Qed.

Lemma stops_at_failure c walk args h rs t o a f x l ap b :
  migrate c walk args h rs = (t, o) -> t = a ++ (OpExec f x, RErr l ap) :: b ->
  l = false \/ c_detects_lock c = false \/ ~ may_retry c f x -> no_exec b /\ o <> Done.
Proof.
  intros H E Hc. destruct (migrate_groups _ _ _ _ _ _ _ H) as (t0 & t1 & gs & fin & -> & Hr & Hg & Hv & _).
  apply app_split in E as [(b1 & E & _)|(a2 & -> & ->)].
  - exfalso. eapply (reads_no_exec _ Hr). rewrite E. apply in_or_app. right. left. reflexivity.
  - eapply groups_stop; [exact Hg|exact Hv|reflexivity|exact Hc].
Qed.

(** ** C23: undo *)
Lemma undo_script_name f u : undo_script f u -> u = undo_name f.
Proof.
  intros H. inversion H as [g|g Hn]; subst; unfold undo_name.
  - change (g ++ B".txoff.sql") with (g ++ (B".txoff" ++ B".sql")). rewrite app_assoc, trim_suffix_app, trim_suffix_app. reflexivity.
  - rewrite trim_suffix_app. rewrite trim_suffix_none; [reflexivity|].
    destruct (has_suffix g (B".txoff")) eqn:E; [|reflexivity]. apply has_suffix_iff in E. contradiction.
Qed.

Lemma plain_batch_error c m x t o : batch_trace c [m] t o -> is_tx (c_dialect c) [m] = false ->
  c_dir c (m_name m) = Some x -> single_statement x = false ->
  forall a f y l ap b, t = a ++ (OpExec f y, RErr l ap) :: b ->
  a = [] /\ f = m_name m /\ y = x /\ o = Failed
  /\ exists u w, b = u ++ w /\ undone c false [m] u
     /\ (w = [] \/ exists rows r, w = [(OpUpsert rows, r)]).
Proof.
  intros H Ht Hd Hs.
  inversion H as [t0 o0 Ht' Hr|m' Ht' Hh Hd'|m' z t0 o0 Ht' Hq Hd' Hr]; subst; [congruence|intros [|? ?]; discriminate|].
  injection Hq as <-. assert (z = x) by congruence. subst z. rewrite Hs in Hr.
  assert (Hone : forall t res, run_trace c [m] t res ->
     (forall a f y l ap b, t = a ++ (OpExec f y, RErr l ap) :: b -> a = [] /\ f = m_name m /\ y = x /\ b = [])).
  { intros t1 res Hrun. inversion Hrun as [l0 a0 Hx|r t' res' Hx Hk Hl|t' res' Hx Hl]; subst; try congruence.
    assert (Hroll : forall b, rolled false b -> b = []) by (inversion 1; reflexivity).
    intros a1 f1 y1 l1 ap1 b1.
    inversion Hl as [| | |? ? ? b0 Hd0 Hb|? ? ? x0 l0 a0 b0 Hd0 Hb|? ? ? x0 r t2 res2 Hd0 Hk Hs0 Hl0|? ? ? x0 r r' t2 res2 Hd0 Hk Hs0 Hk' Hl0|? ? ? x0 r l0 a0 b0 Hd0 Hk Hs0 Hb]; subst; intros E1.
    - apply Hroll in Hb. rewrite Hb in E1. destruct a1; discriminate.
    - apply Hroll in Hb. subst. destruct a1 as [|? [|? ?]]; try discriminate. injection E1 as <- <- _ _ <-.
      split; [reflexivity|]. split; [reflexivity|]. split; [congruence|reflexivity].
    - destruct a1 as [|? a1]; [injection E1 as _ _ -> _; discriminate|]. injection E1 as _ E1.
      inversion Hl0; subst; try discriminate. destruct a1; discriminate.
    - destruct a1 as [|? a1]; [injection E1 as _ _ -> _; discriminate|]. injection E1 as _ E1.
      destruct a1 as [|? a1]; [discriminate|]. injection E1 as _ E1.
      inversion Hl0; subst; try discriminate. destruct a1; discriminate.
    - apply Hroll in Hb. subst. destruct a1 as [|? a1]; [injection E1 as _ _ -> _; discriminate|]. injection E1 as _ E1.
      destruct a1 as [|? [|? ?]]; discriminate. }
  assert (Hundo : forall re q u, undone c re q u -> forall a f y r b, u <> a ++ (OpExec f y, r) :: b).
  { inversion 1; subst; intros [|? [|? ?]] ? ? ? ?; discriminate. }
  inversion Hr as [k0 q0 t1 n q' Hr0|k0 q0 t1 n q' Hr0 Hre|k0 q0 t1 n q' Hr0 Hre|k0 q0 t1 n q' r Hr0 Hre|k0 q0 t1 n q' r r' t' o' Hr0 Hre
                 |k0 q0 t1 n l0 q' u Hr0 Hl0 Hu Hn|k0 q0 t1 n l0 q' u r Hr0 Hl0 Hu Hn Hsk]; subst; try discriminate;
    intros a f y l ap b E.
  - destruct (run_error _ _ _ _ Hr0 _ _ _ _ _ _ E) as [Hx _]. discriminate.
  - pose proof (run_trace_shape _ _ _ _ _ _ Hr0) as (Hk & _).
    assert (Hu' : undone c false [m] u).
    { destruct q' as [|m' [|? ?]]; try discriminate. injection Hk as Hk1 Hk2.
      inversion Hu; subst; try discriminate.
      - match goal with H : [m'] = _ :: _ |- _ => injection H as <- <- end. eapply undone_missing; [reflexivity|reflexivity|]. rewrite <- Hk1. assumption.
      - match goal with H : [m'] = _ :: _ |- _ => injection H as <- <- end. rewrite Hk1 in *. eapply undone_run; [reflexivity|reflexivity|assumption]. }
    apply app_split in E as [(b1 & -> & ->)|(a2 & E & ->)]; [|exfalso; eapply Hundo; eassumption].
    destruct (Hone _ _ Hr0 _ _ _ _ _ _ eq_refl) as (-> & -> & -> & ->).
    do 4 (split; [reflexivity|]). exists u, []. rewrite app_nil_r. auto.
  - pose proof (run_trace_shape _ _ _ _ _ _ Hr0) as (Hk & _).
    assert (Hu' : undone c false [m] u).
    { destruct q' as [|m' [|? ?]]; try discriminate. injection Hk as Hk1 Hk2.
      inversion Hu; subst; try discriminate.
      - match goal with H : [m'] = _ :: _ |- _ => injection H as <- <- end. eapply undone_missing; [reflexivity|reflexivity|]. rewrite <- Hk1. assumption.
      - match goal with H : [m'] = _ :: _ |- _ => injection H as <- <- end. rewrite Hk1 in *. eapply undone_run; [reflexivity|reflexivity|assumption]. }
    apply app_split in E as [(b1 & -> & ->)|(a2 & E & ->)].
    + destruct (Hone _ _ Hr0 _ _ _ _ _ _ eq_refl) as (-> & -> & -> & ->).
      do 4 (split; [reflexivity|]). exists u, [(OpUpsert (map failure_row (firstn (S (Z.to_nat n)) q')), r)].
      split; [reflexivity|]. split; [exact Hu'|]. right. eauto.
    + exfalso. apply app_split in E as [(b1 & -> & _)|(a3 & E & _)]; [eapply Hundo; [exact Hu|reflexivity]|].
      destruct a3 as [|? [|? ?]]; discriminate.
Qed.

Lemma groups_batch c fin gs t o : groups_trace c fin gs t o -> forall a e b, t = a ++ e :: b ->
  exists g tg og a1 b1 b2, In g gs /\ batch_trace c g tg og /\ tg = a1 ++ e :: b1 /\ b = b1 ++ b2
    /\ (og <> Done -> b2 = []) /\ exists a0, a = a0 ++ a1.
Proof.
  induction 1 as [|g gs t t' o Hg Hgs IH|g gs t o Hg Hne]; intros a e b E.
  - destruct a; discriminate.
  - apply app_split in E as [(b1 & -> & ->)|(a2 & E & ->)].
    + exists g, (a ++ e :: b1), Done, a, b1, t'. split; [left; reflexivity|]. split; [exact Hg|]. split; [reflexivity|].
      split; [reflexivity|]. split; [congruence|]. exists []. reflexivity.
    + destruct (IH _ _ _ E) as (g' & tg & og & a1 & b1 & b2 & Hin & Hb & E1 & E2 & E3 & a0 & ->).
      exists g', tg, og, a1, b1, b2. split; [right; exact Hin|]. do 4 (split; [assumption|]). exists (t ++ a0). apply app_assoc.
  - exists g, t, o, a, b, []. split; [left; reflexivity|]. split; [exact Hg|]. split; [exact E|].
    split; [rewrite app_nil_r; reflexivity|]. split; [reflexivity|]. exists []. reflexivity.
Qed.

Lemma undo_runs c walk args h rs t o a f x l ap b u y :
  migrate c walk args h rs = (t, o) -> t = a ++ (OpExec f x, RErr l ap) :: b ->
  ~ in_transaction (c_dialect c) f -> ~ one_statement x ->
  undo_script f u -> c_dir c u = Some y ->
  exists r b', b = (OpUndo u y, r) :: b'.
Proof.
  intros H E Htx Hone Hu Hy. destruct (migrate_groups _ _ _ _ _ _ _ H) as (t0 & t1 & gs & fin & -> & Hr & Hg & Hv & _).
  apply app_split in E as [(b1 & E & _)|(a2 & -> & ->)].
  { exfalso. eapply (reads_no_exec _ Hr). rewrite E. apply in_or_app. right. left. reflexivity. }
  destruct (groups_batch _ _ _ _ _ Hg _ _ _ eq_refl) as (g & tg & og & a1 & b1 & b2 & Hin & Hb & E1 & -> & _ & _).
  rewrite Forall_forall in Hv. specialize (Hv g Hin).
  pose proof (batch_trace_events _ _ _ _ Hb) as Hev. rewrite E1 in Hev.
  apply Forall_app in Hev as [_ Hev]. inversion Hev as [|? ? He _]; subst. cbn in He. destruct He as [Hf Hx].
  destruct (valid_is_tx _ _ Hv) as [[_ Hall]|(Hnt & m & -> & Hn)].
  { exfalso. apply in_map_iff in Hf as (m & <- & Hm). rewrite Forall_forall in Hall. apply Htx, Hall. exact Hm. }
  destruct Hf as [<-|[]].
  assert (Es : single_statement x = false).
  { destruct (single_statement x) eqn:Es; [|reflexivity]. exfalso. apply Hone, single_statement_iff. exact Es. }
  destruct (plain_batch_error _ _ _ _ _ Hb Hnt Hx Es _ _ _ _ _ _ eq_refl) as (_ & _ & _ & _ & u0 & w & -> & Hund & _).
  apply undo_script_name in Hu. subst u.
  inversion Hund as [He|He|m' q' _ Hq Hd|m' q' z r _ Hq Hd]; subst; try discriminate.
  - injection Hq as <- <-. congruence.
  - injection Hq as <- <-. assert (z = y) by congruence. subst z. eexists _, _. reflexivity.
Qed.

(** ** C21: number of executions *)
Notation occ := (count_occ (list_eq_dec Ascii.ascii_dec)).
Lemma executions_app f a b : executions f (a ++ b) = executions f a + executions f b.
Proof. unfold executions. rewrite filter_app, app_length. reflexivity. Qed.
Lemma executions_none f t : no_exec t -> executions f t = 0.
Proof.
  unfold executions. induction t as [|[o r] t IH]; intros H; [reflexivity|]. cbn [filter].
  assert (Ht : no_exec t) by (intros g x r0 Hi; eapply H; right; exact Hi).
  unfold is_exec at 1. cbn [fst]. destruct o; try (apply IH; exact Ht).
  exfalso. eapply H. left. reflexivity.
Qed.
Lemma executions_cons f e t : executions f (e :: t) = (if is_exec f e then 1 else 0) + executions f t.
Proof. unfold executions. cbn [filter]. destruct (is_exec f e); reflexivity. Qed.
Lemma is_exec_count f m x r : (if is_exec f (OpExec (m_name m) x, r) then 1 else 0) + 0 = occ [m_name m] f.
Proof.
  unfold is_exec. cbn [fst count_occ]. destruct (beqb_spec (m_name m) f) as [->|E].
  - destruct (list_eq_dec Ascii.ascii_dec f f); [reflexivity|congruence].
  - destruct (list_eq_dec Ascii.ascii_dec (m_name m) f); [congruence|reflexivity].
Qed.

Lemma loop_executions c (tx : bool) done q t res : loop_trace c tx done q t res ->
  forall f, executions f t <= occ (map m_name q) f.
Proof.
  assert (Hb : forall b f, rolled tx b -> executions f b = 0) by (intros b f H; apply executions_none; eapply rolled_no_exec; exact H).
  assert (Hc : forall f m q, occ (map m_name (m :: q)) f = occ [m_name m] f + occ (map m_name q) f).
  { intros f m q0. change (map m_name (m :: q0)) with ([m_name m] ++ map m_name q0). apply count_occ_app. }
  induction 1 as [done r Ht Hk|done l a Ht|done Ht|done m rest b Hd Hro|done m rest x l a b Hd Hro
                 |done m rest x r t res Hd Hk Hs Hl IH|done m rest x r r' t res Hd Hk Hs Hk' Hl IH
                 |done m rest x r l a b Hd Hk Hs Hro]; intros f.
  - cbn. lia.
  - cbn. lia.
  - cbn. lia.
  - rewrite (Hb b f Hro). lia.
  - rewrite executions_cons, (Hb b f Hro), Hc. rewrite <- (is_exec_count f m x (RErr l a)). lia.
  - rewrite executions_cons, Hc. rewrite <- (is_exec_count f m x r). specialize (IH f). lia.
  - rewrite !executions_cons, Hc. rewrite <- (is_exec_count f m x r). specialize (IH f). cbn [is_exec fst]. lia.
  - rewrite !executions_cons, (Hb b f Hro), Hc. rewrite <- (is_exec_count f m x r). cbn [is_exec fst]. lia.
Qed.
Lemma run_executions c q t res : run_trace c q t res -> forall f, executions f t <= occ (map m_name q) f.
Proof.
  inversion 1 as [l a Ht|r t' res' Ht Hk Hl|t' res' Ht Hl]; subst; intros f.
  - cbn. lia.
  - rewrite executions_cons. cbn [is_exec fst]. eapply loop_executions. exact Hl.
  - eapply loop_executions. exact Hl.
Qed.
Lemma undone_no_exec c re q u : undone c re q u -> no_exec u.
Proof. inversion 1; subst; [apply no_exec_nil|apply no_exec_nil|apply no_exec_nil|apply no_exec_one; discriminate]. Qed.

Lemma retry_executions c re k q t o : retry_trace c re k q t o -> forall f,
  executions f t <= Nat.max 1 (Z.to_nat (c_max_attempts c - k)) * occ (map m_name q) f.
Proof.
  assert (Hm : forall k n x, x <= n -> x <= Nat.max 1 (Z.to_nat (c_max_attempts c - k)) * n).
  { intros k0 n x Hx. transitivity (1 * n); [lia|]. apply Nat.mul_le_mono_r. lia. }
  induction 1 as [k q t n q' Hr|k q t n q' Hr Hre Hd _|k q t n q' Hr Hre Hd _ _|k q t n q' r Hr Hre Hd Hk Hn Hneg
                  |k q t n q' r r' t' o Hr Hre Hd Hk Hn Hneg Ht IH|k q t n l0 q' u Hr Hl Hund Hq|k q t n l0 q' u r Hr Hl Hund Hn Hs];
    intros f; pose proof (run_executions _ _ _ _ Hr f) as Hx.
  - apply Hm. exact Hx.
  - apply Hm. exact Hx.
  - apply Hm. exact Hx.
  - apply Hm. rewrite executions_app. cbn. lia.
  - rewrite executions_app, !executions_cons. cbn [is_exec fst]. specialize (IH f).
    pose proof (run_trace_shape _ _ _ _ _ _ Hr) as (Hkey & _). rewrite (key_names _ _ Hkey) in IH.
    replace (Nat.max 1 (Z.to_nat (c_max_attempts c - k))) with (S (Nat.max 1 (Z.to_nat (c_max_attempts c - (k + 1))))) by lia.
    cbn [Nat.mul]. lia.
  - apply Hm. rewrite executions_app, (executions_none f u) by (eapply undone_no_exec; exact Hund). lia.
  - apply Hm. rewrite !executions_app, (executions_none f u) by (eapply undone_no_exec; exact Hund). cbn. lia.
Qed.

(** Without lock timeouts there is one attempt. *)
Lemma run_lock_event c q t n q' : run_trace c q t (n, Some true, q') -> exists op ap, In (op, RErr true ap) t.
Proof.
  assert (Hl : forall tx done q t res, loop_trace c tx done q t res -> snd (fst res) = Some true -> exists op ap, In (op, RErr true ap) t).
  { induction 1; cbn [fst snd]; intros E; try discriminate.
    - injection E as ->. eexists _, _. left. reflexivity.
    - injection E as ->. eexists _, _. left. reflexivity.
    - destruct (IHloop_trace E) as (op & ap & Hi). exists op, ap. right. exact Hi.
    - destruct (IHloop_trace E) as (op & ap & Hi). exists op, ap. right. right. exact Hi.
    - injection E as ->. eexists _, _. right. left. reflexivity. }
  inversion 1 as [l a Ht|r t' res' Ht Hk Hlt|t' res' Ht Hlt]; subst.
  - eexists _, _. left. reflexivity.
  - destruct (Hl _ _ _ _ _ Hlt eq_refl) as (op & ap & Hi). exists op, ap. right. exact Hi.
  - exact (Hl _ _ _ _ _ Hlt eq_refl).
Qed.
Lemma retry_once c re k q t o : retry_trace c re k q t o -> Forall no_lock t \/ re = false \/ c_detects_lock c = false -> forall f,
  executions f t <= occ (map m_name q) f.
Proof.
  intros H Hc f.
  inversion H as [k0 q0 t1 n q' Hr0|k0 q0 t1 n q' Hr0 Hre|k0 q0 t1 n q' Hr0 Hre|k0 q0 t1 n q' r Hr0 Hre|k0 q0 t1 n q' r r' t' o' Hr0 Hre Hd
                 |k0 q0 t1 n l0 q' u Hr0 Hl0 Hu Hn|k0 q0 t1 n l0 q' u r Hr0 Hl0 Hu Hn Hsk]; subst;
    pose proof (run_executions _ _ _ _ Hr0 f) as Hx.
  - exact Hx.
  - exact Hx.
  - exact Hx.
  - rewrite executions_app. cbn. lia.
  - exfalso. destruct Hc as [Hc|[Hc|Hc]]; [|congruence|congruence].
    destruct (run_lock_event _ _ _ _ _ Hr0) as (op & ap & Hi). apply Forall_app in Hc as [Hc _].
    rewrite Forall_forall in Hc. apply (Hc _ Hi ap). reflexivity.
  - rewrite executions_app, (executions_none f u) by (eapply undone_no_exec; exact Hu). lia.
  - rewrite !executions_app, (executions_none f u) by (eapply undone_no_exec; exact Hu). cbn. lia.
Qed.

Lemma batch_executions c q t o : batch_trace c q t o -> forall f,
  executions f t <= Nat.max 1 (Z.to_nat (c_max_attempts c)) * occ (map m_name q) f.
Proof.
  inversion 1 as [t0 o0 Ht' Hr|m' Ht' Hh Hd'|m' z t0 o0 Ht' Hq Hd' Hr]; subst; intros f.
  - pose proof (retry_executions _ _ _ _ _ _ Hr f) as Hx. rewrite Z.sub_0_r in Hx. exact Hx.
  - cbn. lia.
  - pose proof (retry_executions _ _ _ _ _ _ Hr f) as Hx. rewrite Z.sub_0_r in Hx. exact Hx.
Qed.
Lemma executions_other c names t f : Forall (batch_event c names) t -> ~ In f names -> executions f t = 0.
Proof.
  unfold executions. induction t as [|[o r] t IH]; intros H Hn; [reflexivity|]. inversion H as [|? ? He Ht]; subst.
  cbn [filter]. unfold is_exec at 1. cbn [fst]. destruct o; try (apply IH; assumption).
  cbn in He. destruct (beqb_spec f0 f) as [->|E]; [tauto|apply IH; assumption].
Qed.
Lemma batch_once c q t o : batch_trace c q t o -> uniform c q -> forall f,
  Forall no_lock t \/ c_detects_lock c = false \/ (exists x, c_dir c f = Some x /\ ~ may_retry c f x) ->
  executions f t <= occ (map m_name q) f.
Proof.
  intros H Hu f Hc.
  destruct (in_dec (list_eq_dec Ascii.ascii_dec) f (map m_name q)) as [Hin|Hin].
  2:{ rewrite (executions_other c (map m_name q)); [lia|apply batch_trace_events with (o := o); exact H|exact Hin]. }
  inversion H as [t0 o0 Ht' Hr|m' Ht' Hh Hd'|m' z t0 o0 Ht' Hq Hd' Hr]; subst.
  - eapply retry_once; [exact Hr|]. destruct Hc as [Hc|[Hc|(x & Hx & Hc)]]; [auto|auto|].
    exfalso. apply Hc. left. apply in_map_iff in Hin as (m & <- & Hm). apply in_txb_iff. rewrite (Hu m Hm). exact Ht'.
  - cbn. lia.
  - eapply retry_once; [exact Hr|]. destruct Hc as [Hc|[Hc|(x & Hx & Hc)]]; [auto|auto|].
    destruct Hin as [<-|[]]. assert (z = x) by congruence. subst z. right. left.
    destruct (single_statement x) eqn:Es; [|reflexivity]. exfalso. apply Hc. right. apply single_statement_iff. exact Es.
Qed.

Lemma groups_executions c fin gs t o : groups_trace c fin gs t o -> Forall (valid_group (c_dialect c)) gs -> forall f,
  executions f t <= Nat.max 1 (Z.to_nat (c_max_attempts c)) * occ (map m_name (concat gs)) f
  /\ (Forall no_lock t \/ c_detects_lock c = false \/ (exists x, c_dir c f = Some x /\ ~ may_retry c f x) ->
      executions f t <= occ (map m_name (concat gs)) f).
Proof.
  induction 1 as [|g gs t t' o Hg Hgs IH|g gs t o Hg Hne]; intros Hv f.
  - cbn. lia.
  - inversion Hv as [|? ? Hv1 Hv2]; subst. destruct (IH Hv2 f) as [I1 I2]. rewrite executions_app.
    cbn [concat]. rewrite map_app, count_occ_app. split.
    + pose proof (batch_executions _ _ _ _ Hg f). rewrite Nat.mul_add_distr_l. unfold bytes in *. lia.
    + intros Hc. assert (Hc' : Forall no_lock t' \/ c_detects_lock c = false \/ (exists x, c_dir c f = Some x /\ ~ may_retry c f x))
        by (destruct Hc as [Hc|Hc]; [left; apply Forall_app in Hc; tauto|right; exact Hc]).
      assert (Hc1 : Forall no_lock t \/ c_detects_lock c = false \/ (exists x, c_dir c f = Some x /\ ~ may_retry c f x))
        by (destruct Hc as [Hc|Hc]; [left; apply Forall_app in Hc; tauto|right; exact Hc]).
      specialize (I2 Hc'). pose proof (batch_once _ _ _ _ Hg (valid_uniform _ _ Hv1) f Hc1). unfold bytes in *. lia.
  - inversion Hv as [|? ? Hv1 Hv2]; subst. cbn [concat]. rewrite map_app, count_occ_app. split.
    + pose proof (batch_executions _ _ _ _ Hg f). rewrite Nat.mul_add_distr_l. unfold bytes in *. lia.
    + intros Hc. pose proof (batch_once _ _ _ _ Hg (valid_uniform _ _ Hv1) f Hc). unfold bytes in *. lia.
Qed.

Lemma attempts_bounded c walk args h rs t o files f :
  migrate c walk args h rs = (t, o) -> selected_files c walk args = Some files ->
  executions f t <= Nat.max 1 (Z.to_nat (c_max_attempts c)) * occ files f
  /\ (Forall no_lock t \/ c_detects_lock c = false \/ (exists x, c_dir c f = Some x /\ ~ may_retry c f x) ->
      executions f t <= occ files f).
Proof.
  intros H Hf. destruct (migrate_groups _ _ _ _ _ _ _ H) as (t0 & t1 & gs & fin & -> & Hr & Hg & Hv & _ & Hn).
  pose proof (subseq_count (list_eq_dec Ascii.ascii_dec) _ _ f (proj1 (Hn files Hf))) as Hn'. clear Hn. rename Hn' into Hn. rewrite executions_app, (executions_none f t0) by (apply reads_no_exec; exact Hr).
  destruct (groups_executions _ _ _ _ _ Hg Hv f) as [I1 I2]. split.
  - cbn [Nat.add]. etransitivity; [exact I1|]. apply Nat.mul_le_mono_l. exact Hn.
  - intros Hc. cbn [Nat.add]. etransitivity; [apply I2|exact Hn].
    destruct Hc as [Hc|Hc]; [left; apply Forall_app in Hc; tauto|right; exact Hc].
Qed.

(** ** C21: waiting *)
Definition no_sleep (t : list event) : Prop := forall d r, ~ In (OpSleep d, r) t.
Lemma run_no_sleep c q t res : run_trace c q t res -> no_sleep t.
Proof.
  assert (Hb : forall tx b, rolled tx b -> no_sleep b) by (intros tx b; inversion 1; subst; intros d r0 Hi; cbn in Hi; intuition congruence).
  assert (Hc : forall e t, (forall d, fst e <> OpSleep d) -> no_sleep t -> no_sleep (e :: t)).
  { intros e t0 He Ht d r [->|Hi]; [apply (He d); reflexivity|apply (Ht d r Hi)]. }
  assert (Hn : no_sleep []) by (intros d r []).
  assert (Hl : forall tx done q t res, loop_trace c tx done q t res -> no_sleep t).
  { induction 1; repeat (apply Hc; [discriminate|]); eauto. }
  inversion 1 as [l a Ht|r t' res' Ht Hk Hlt|t' res' Ht Hlt]; subst; [apply Hc; [discriminate|exact Hn]| |eauto].
  apply Hc; [discriminate|eauto].
Qed.

(** How an attempt that reports a lock timeout ends. *)
Lemma loop_lock_last c (tx : bool) done q t res : loop_trace c tx done q t res -> snd (fst res) = Some true ->
  exists t0 op ap b, t = t0 ++ (op, RErr true ap) :: b /\ (b = [] \/ exists r, b = [(OpRollback, r)]).
Proof.
  assert (Hb : forall b, rolled tx b -> b = [] \/ exists r, b = [(OpRollback, r)]) by (inversion 1; eauto).
  induction 1; cbn [fst snd]; intros E; try discriminate.
  - injection E as ->. exists [], OpCommit, a, []. auto.
  - injection E as ->. eexists [], _, a, b. split; [reflexivity|auto].
  - destruct (IHloop_trace E) as (t0 & op & ap & b & -> & Hx). eexists (_ :: t0), op, ap, b. split; [reflexivity|exact Hx].
  - destruct (IHloop_trace E) as (t0 & op & ap & b & -> & Hx). eexists (_ :: _ :: t0), op, ap, b. split; [reflexivity|exact Hx].
  - injection E as ->. eexists [_], _, a, b. split; [reflexivity|auto].
Qed.
Lemma run_lock_last c q t n q' : run_trace c q t (n, Some true, q') ->
  exists t0 op ap b, t = t0 ++ (op, RErr true ap) :: b /\ (b = [] \/ exists r, b = [(OpRollback, r)]).
Proof.
  inversion 1 as [l a Ht|r t' res' Ht Hk Hlt|t' res' Ht Hlt]; subst.
  - exists [], OpBegin, a, []. auto.
  - destruct (loop_lock_last _ _ _ _ _ _ Hlt eq_refl) as (t0 & op & ap & b & -> & Hx).
    eexists (_ :: t0), op, ap, b. split; [reflexivity|exact Hx].
  - exact (loop_lock_last _ _ _ _ _ _ Hlt eq_refl).
Qed.

(** What precedes a wait, and how long it is. *)
Definition good_wait (c : config) (a : list event) (d : Z) : Prop :=
  (exists a0 op ap rb n r, a = a0 ++ (op, RErr true ap) :: rb ++ [(OpRand n, r)]
     /\ (rb = [] \/ exists r', rb = [(OpRollback, r')]))
  /\ c_detects_lock c = true
  /\ ((c_base_delay c <= c_max_delay c)%Z -> (c_base_delay c <= d <= c_max_delay c)%Z).

Lemma good_wait_app c a0 a d : good_wait c a d -> good_wait c (a0 ++ a) d.
Proof.
  intros ((a1 & op & ap & rb & n & r & -> & H) & H2). split; [|exact H2].
  exists (a0 ++ a1), op, ap, rb, n, r. rewrite <- app_assoc. split; [reflexivity|exact H].
Qed.

Lemma retry_waits c re k q t o : retry_trace c re k q t o ->
  forall a d r b, t = a ++ (OpSleep d, r) :: b -> good_wait c a d /\ re = true.
Proof.
  assert (Hu : forall q u, undone c re q u -> no_sleep u)
    by (inversion 1; subst; intros d r0 Hi; cbn in Hi; intuition congruence).
  assert (Hmid : forall (a : list event) e b, In e (a ++ e :: b)) by (intros; apply in_or_app; right; left; reflexivity).
  induction 1 as [k q t n q' Hr|k q t n q' Hr Hre Hd _|k q t n q' Hr Hre Hd _ _|k q t n q' r0 Hr Hre Hd Hk Hn Hneg
                  |k q t n q' r0 r' t' o Hr Hre Hd Hk Hn Hneg Ht IH|k q t n l0 q' u Hr Hl Hund Hq|k q t n l0 q' u r0 Hr Hl Hund Hn Hs];
    intros a d r b E; pose proof (run_no_sleep _ _ _ _ Hr) as Hns.
  - exfalso. apply (Hns d r). rewrite E. apply Hmid.
  - exfalso. apply (Hns d r). rewrite E. apply Hmid.
  - exfalso. apply (Hns d r). rewrite E. apply Hmid.
  - exfalso. assert (Hi : In (OpSleep d, r) (t ++ [(OpRand (draw_range c (k + 1)), r0)])) by (rewrite E; apply Hmid).
    apply in_app_or in Hi as [Hi|[Hi|[]]]; [apply (Hns d r Hi)|discriminate].
  - apply app_split in E as [(b1 & -> & ->)|(a2 & E & ->)]; [exfalso; apply (Hns d r), Hmid|].
    destruct a2 as [|? [|? a2]]; try discriminate.
    + injection E as <- <- <- <-. split; [|exact Hre]. split; [|split; [exact Hd|]].
      * destruct (run_lock_last _ _ _ _ _ Hr) as (t0 & op & ap & rb & -> & Hrb).
        exists t0, op, ap, rb, (draw_range c (k + 1)), r0. split; [rewrite <- app_assoc; reflexivity|exact Hrb].
      * intros Hle. unfold delay_of. cbn zeta.
        destruct (Z.ltb_spec (drawn (draw_range c (k + 1)) r0 * second) (c_base_delay c)); [lia|].
        destruct (Z.ltb_spec (c_max_delay c) (drawn (draw_range c (k + 1)) r0 * second)); lia.
    + injection E as <- <- E. destruct (IH _ _ _ _ E) as [I1 I2]. split; [|exact I2].
      change (t ++ (OpRand (draw_range c (k + 1)), r0) :: (OpSleep (delay_of c (drawn (draw_range c (k + 1)) r0)), r') :: a2)
        with (t ++ [(OpRand (draw_range c (k + 1)), r0); (OpSleep (delay_of c (drawn (draw_range c (k + 1)) r0)), r')] ++ a2).
      apply good_wait_app, good_wait_app. exact I1.
  - exfalso. assert (Hi : In (OpSleep d, r) (t ++ u)) by (rewrite E; apply Hmid).
    apply in_app_or in Hi as [Hi|Hi]; [apply (Hns d r Hi)|apply (Hu _ _ Hund d r Hi)].
  - exfalso. assert (Hi : In (OpSleep d, r) (t ++ u ++ [(OpUpsert (map failure_row (firstn (S (Z.to_nat n)) q')), r0)])) by (rewrite E; apply Hmid).
    apply in_app_or in Hi as [Hi|Hi]; [apply (Hns d r Hi)|]. apply in_app_or in Hi as [Hi|[Hi|[]]]; [apply (Hu _ _ Hund d r Hi)|discriminate].
Qed.

Lemma waits_after_lock_timeout c walk args h rs t o a d r b :
  migrate c walk args h rs = (t, o) -> t = a ++ (OpSleep d, r) :: b -> good_wait c a d.
Proof.
  intros H E. destruct (migrate_groups _ _ _ _ _ _ _ H) as (t0 & t1 & gs & fin & -> & Hr & Hg & Hv & _).
  apply app_split in E as [(b1 & E & _)|(a2 & -> & ->)].
  { exfalso. destruct (Hr (OpSleep d, r)); [rewrite E; apply in_or_app; right; left; reflexivity| |]; discriminate. }
  destruct (groups_batch _ _ _ _ _ Hg _ _ _ eq_refl) as (g & tg & og & a1 & b1 & b2 & Hin & Hb & E1 & -> & _ & a0 & ->).
  apply good_wait_app, good_wait_app.
  inversion Hb as [t2 o0 Ht' Hr'|m' Ht' Hh Hd'|m' z t2 o0 Ht' Hq Hd' Hr']; subst.
  - eapply retry_waits; [exact Hr'|reflexivity].
  - destruct a1; discriminate.
  - eapply retry_waits; [exact Hr'|reflexivity].
Qed.

(** ** C22 *)
Definition sane_delays (c : config) : Prop :=
  (500000000 <= c_base_delay c)%Z /\ (c_base_delay c * 2 ^ (c_max_attempts c - 1) < 2 ^ 63)%Z.

Lemma draw_range_pos c k : sane_delays c -> (1 <= k < c_max_attempts c)%Z -> (0 < draw_range c k)%Z.
Proof.
  intros [Hb Hm] Hk. unfold draw_range.
  assert (Hk63 : (k < 63)%Z).
  { destruct (Z_lt_ge_dec k 63) as [H|H]; [exact H|exfalso].
    assert (2 ^ 63 <= 2 ^ (c_max_attempts c - 1))%Z by (apply Z.pow_le_mono_r; lia).
    assert (0 < 2 ^ 63)%Z by reflexivity. nia. }
  unfold multiplier. destruct (k <? 63)%Z eqn:E; [|lia].
  assert (Hp : (2 ^ k <= 2 ^ (c_max_attempts c - 1))%Z) by (apply Z.pow_le_mono_r; lia).
  assert (H2 : (2 <= 2 ^ k)%Z) by (change 2%Z with (2 ^ 1)%Z at 1; apply Z.pow_le_mono_r; lia).
  assert (Hx : (1000000000 <= c_base_delay c * 2 ^ k < 2 ^ 63)%Z) by nia.
  assert (Hw : wrap64 (c_base_delay c * 2 ^ k) = (c_base_delay c * 2 ^ k)%Z).
  { unfold wrap64. rewrite Z.mod_small; [lia|].
    change (2 ^ 64)%Z with (2 ^ 63 + 2 ^ 63)%Z. lia. }
  rewrite Hw. unfold second.
  apply Z.quot_str_pos. split; lia.
Qed.

Definition no_begin_timeout (t : list event) : Prop := forall ap, ~ In (OpBegin, RErr true ap) t.

Lemma retry_no_panic c re k q t o : retry_trace c re k q t o -> q <> [] -> sane_delays c -> (0 <= k)%Z ->
  no_begin_timeout t -> o <> Panicked.
Proof.
  intros H Hq Hs. revert Hq.
  assert (Hneg : forall q t n q', q <> [] -> run_trace c q t (n, Some true, q') -> (n < 0)%Z -> exists ap, In (OpBegin, RErr true ap) t).
  { intros q0 t0 n q' Hq Hr Hn. pose proof (run_trace_shape _ _ _ _ _ _ Hr) as (_ & _ & _ & Hx).
    destruct (Hx Hq Hn) as (l & a & -> & [= <-] & _). exists a. left. reflexivity. }
  induction H as [k q t n q' Hr|k q t n q' Hr Hre Hd Hk|k q t n q' Hr Hre Hd Hk Hn|k q t n q' r0 Hr Hre Hd Hk Hn Hng
                  |k q t n q' r0 r' t' o Hr Hre Hd Hk Hn Hng Ht IH|k q t n l0 q' u Hr Hl Hund Hq'|k q t n l0 q' u r0 Hr Hl Hund Hn Hsk];
    intros Hq Hk0 Hb; try discriminate.
  - destruct (n <? 0)%Z eqn:E; [|discriminate]. exfalso.
    destruct (Hneg _ _ _ _ Hq Hr ltac:(lia)) as (ap & Hi). apply (Hb ap Hi).
  - exfalso. pose proof (draw_range_pos c (k + 1) Hs ltac:(lia)). lia.
  - exfalso. destruct (Hneg _ _ _ _ Hq Hr Hng) as (ap & Hi). apply (Hb ap). apply in_or_app. left. exact Hi.
  - apply IH; [|lia|].
    + eapply key_nil; [|exact Hq]. apply (run_trace_shape _ _ _ _ _ _ Hr).
    + intros ap Hi. apply (Hb ap). apply in_or_app. right. right. right. exact Hi.
Qed.

Lemma never_panics c walk args h rs t o : migrate c walk args h rs = (t, o) ->
  sane_delays c -> no_begin_timeout t -> o = Done \/ o = Failed.
Proof.
  intros H Hs Hb. destruct (migrate_groups _ _ _ _ _ _ _ H) as (t0 & t1 & gs & fin & -> & Hr & Hg & Hv & Hfin & _).
  assert (Hb1 : no_begin_timeout t1) by (intros ap Hi; apply (Hb ap), in_or_app; right; exact Hi).
  clear - Hg Hs Hb1 Hv Hfin. revert Hb1 Hv.
  assert (Hbt : forall g t o, batch_trace c g t o -> valid_group (c_dialect c) g -> no_begin_timeout t -> o = Done \/ o = Failed).
  { intros g t o0 Hb Hv Hn. assert (Hq : g <> []) by (destruct Hv as [[Hx _]|(m & -> & _)]; [exact Hx|discriminate]).
    pose proof (batch_trace_fuel _ _ _ _ Hb) as Hf.
    assert (Hp : o0 <> Panicked); [|destruct o0; auto; congruence].
    inversion Hb; subst; try discriminate; eapply retry_no_panic; try eassumption; lia. }
  induction Hg as [|g gs t t' o Hg Hgs IH|g gs t o Hg Hne]; intros Hb1 Hv.
  - exact Hfin.
  - inversion Hv; subst. apply IH; [|assumption]. intros ap Hi. apply (Hb1 ap), in_or_app. right. exact Hi.
  - inversion Hv; subst. eapply Hbt; eassumption.
Qed.

(** ** C20, a run of clean inputs without errors *)
Lemma clean_run_ok c walk args files s pend gs rs t o :
  clean c walk args files -> NoDup (map r_name (hist s)) -> pending c (hist s) files pend ->
  grouping (c_dialect c) pend gs -> (c_skip_history c = false -> files <> []) ->
  migrate c walk args (hist s) rs = (t, o) -> full_read t -> all_ok t ->
  exists rows ops, map fst t = (if c_skip_history c then [] else [OpEnsure; OpQuery]) ++ ops
    /\ group_ops c rows gs ops /\ o = Done
    /\ forall f, r_name (rows f) = f /\ r_success (rows f) = true
         /\ (is_repeatable f -> forall x, c_dir c f = Some x -> r_checksum (rows f) = Some (c_hash c (lf_only x))).
Proof.
  intros Hcl Hh Hp Hgr Hne H Hfull Hok. apply all_ok_iff in Hok.
  pose proof (cr_grouping c s pend) as Hg0.
  assert (gs = map (map m_name) (batches (c_dialect c) (map (due c (seen c (hist s))) pend) [])) by (eapply grouping_unique; eassumption).
  subst gs.
  set (rows := fun f => success_row (due c (seen c (hist s)) f)).
  assert (Hrows : forall f, r_name (rows f) = f /\ r_success (rows f) = true
         /\ (is_repeatable f -> forall x, c_dir c f = Some x -> r_checksum (rows f) = Some (c_hash c (lf_only x)))).
  { intros f. unfold rows, success_row. cbn [r_name r_success r_checksum]. split; [apply due_name|]. split; [reflexivity|].
    intros Hrep x Hx. apply repeatable_iff in Hrep. unfold due. rewrite Hrep. cbn [with_checksum m_checksum].
    unfold checksum_of, contents_of. rewrite Hx, lf_only_replace. reflexivity. }
  assert (Hms : forall m, In m (map (due c (seen c (hist s))) pend) -> readable c (m_name m) /\ rows (m_name m) = success_row m).
  { intros m Hm. split.
    - pose proof (cr_readable c walk args files s Hcl pend Hp) as Hrd. rewrite Forall_forall in Hrd. apply Hrd. exact Hm.
    - apply in_map_iff in Hm as (f & <- & _). unfold rows. rewrite due_name. reflexivity. }
  destruct Hcl as [Hf Hn Hnm Hrd Hgh].
  apply migrate_migrate_trace in H.
  inversion H as [Hs|files' t' o' Hs Hsk Ht|files' r Hs Hsk Hbad|files' names r l a Hs Hsk Hk Hq
                 |files' names r r' t' o' Hs Hsk Hk Hq Hk' Ht]; subst.
  - congruence.
  - assert (files' = files) by congruence. subst files'.
    pose proof (pending_seen c (hist s) files pend Hp Hrd Hgh Hh []) as Hpl.
    assert (Hfr : map (entry (seen c (hist s))) files = map fresh files).
    { unfold seen. rewrite Hsk. apply map_ext. reflexivity. }
    rewrite Hfr in Hpl. rewrite Hpl in Ht. cbn [fst snd] in Ht.
    destruct (batches_start (c_dialect c) (map (due c (seen c (hist s))) pend)) as (V1 & V2 & _).
    destruct (groups_ok c rows _ _ _ Ht Hok V1) as [E Eo].
    { rewrite V2. exact Hms. }
    exists rows, (map fst t). rewrite Hsk. auto.
  - exfalso. assert (files' = files) by congruence. subst files'. destruct Hbad as [Hbad|Hbad].
    + inversion Hok; subst. cbn in *. congruence.
    + destruct files as [|f files]; [apply Hne; [exact Hsk|reflexivity]|].
      rewrite (query_names_plain _ (f :: files)) in Hbad; [discriminate|discriminate|exact (Hnm Hsk)].
  - exfalso. inversion Hok as [|? ? _ H2]; subst. inversion H2; discriminate.
  - assert (files' = files) by congruence. subst files'.
    assert (Hd : delivered r' (select_rows names (hist s)) = select_rows names (hist s)).
    { destruct r' as [|l a|n]; [reflexivity|discriminate|]. exfalso. apply (Hfull n). right. left. reflexivity. }
    assert (Hl : load_migrations files (delivered r' (select_rows names (hist s))) = map (entry (seen c (hist s))) files).
    { rewrite Hd. unfold seen. rewrite Hsk. apply load_entry; [exact Hh|exact Hn|].
      destruct files as [|f files]; [intros ? []|].
      rewrite (query_names_plain _ (f :: files)) in Hq; [|discriminate|exact (Hnm Hsk)]. injection Hq as <-. apply incl_refl. }
    rewrite Hl, (pending_seen c (hist s) files pend Hp Hrd Hgh Hh []) in Ht. cbn [fst snd] in Ht.
    inversion Hok as [|? ? _ Hok2]; subst. inversion Hok2 as [|? ? _ Hok3]; subst.
    destruct (batches_start (c_dialect c) (map (due c (seen c (hist s))) pend)) as (V1 & V2 & _).
    destruct (groups_ok c rows _ _ _ Ht Hok3 V1) as [E Eo].
    { rewrite V2. exact Hms. }
    exists rows, (map fst t'). rewrite Hsk. auto.
Qed.
