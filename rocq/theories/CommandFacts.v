(** Facts about rm, mv and ls. *)
From Verif Require Import GoStr GoStrFacts ModelSq SpecSql SqFacts ModelHistory HistoryFacts.
From Verif Require Import ModelMigrate SpecDb SpecMigrate MigrateFacts MigrateTrace MigrateBatch MigrateGroups MigratePlan MigrateSafety.
From Verif Require Import MigrateLive MigrateRetry MigrateWitness ModelCommands SpecCommands TouchFacts.

(** ** rm *)
Lemma rm_cases d files ok r counted h h' o : rm d files ok r counted h = (h', o) ->
  (h' = h) \/ exists rows names, h = Some rows /\ query_names d files = Some names /\ h' = Some (delete_rows names rows).
Proof.
  unfold rm. destruct files as [|f files]; [intros [= <- _]; auto|].
  destruct (table_exists d ok h) as [[|]|]; [|intros [= <- _]; auto|intros [= <- _]; auto].
  destruct h as [rows|]; [|intros [= <- _]; auto].
  destruct (query_names d (f :: files)) as [names|] eqn:Eq; cbn [execute].
  - destruct r as [|l [|]|n]; cbn; intros [= <- _]; auto; right; exists rows, names; auto.
  - intros [= <- _]. auto.
Qed.

Lemma In_delete names h r : In r (delete_rows names h) <-> In r h /\ ~ In (r_name r) names.
Proof.
  unfold delete_rows. rewrite filter_In. destruct (bmem (r_name r) names) eqn:E.
  - apply bmem_In in E. cbn. intuition congruence.
  - split; intros [H1 H2]; (split; [exact H1|]); [|reflexivity]. intros Hi. apply bmem_In in Hi. congruence.
Qed.

Lemma plain_query d files : Forall (plain_name d) files ->
  forall names, query_names d files = Some names -> names = files.
Proof.
  intros Hp names. destruct files as [|f files].
  - cbn. destruct d; congruence.
  - rewrite query_names_plain; [congruence|discriminate|exact Hp].
Qed.

(** Whatever happens, rm touches no other row, and does all or nothing. *)
Lemma rm_others d files ok r counted rows h' o : Forall (plain_name d) files ->
  rm d files ok r counted (Some rows) = (h', o) ->
  exists rows', h' = Some rows' /\ (rows' = rows \/ without files rows rows').
Proof.
  intros Hp H. apply rm_cases in H as [->|(rows0 & names & [= <-] & Hq & ->)]; [exists rows; auto|].
  eexists. split; [reflexivity|]. right. intros x. rewrite (plain_query _ _ Hp _ Hq). apply In_delete.
Qed.

Lemma rm_done d files ok r counted rows h' : Forall (plain_name d) files ->
  rm d files ok r counted (Some rows) = (h', Done) ->
  exists rows', h' = Some rows' /\ without files rows rows'.
Proof.
  intros Hp H. unfold rm in H. destruct files as [|f files].
  { injection H as <-. exists rows. split; [reflexivity|]. intros x. cbn. tauto. }
  unfold table_exists in H. rewrite query_names_plain in H; [|discriminate|exact Hp].
  assert (H' : (if ok then let '(rows', executed) := execute (Some (delete_rows (f :: files) rows)) r rows in
                           (Some rows', if executed && counted then Done else Failed)
                else (Some rows, Failed)) = (h', Done)).
  { destruct d, ok; try exact H; discriminate. }
  clear H. destruct ok; [|discriminate]. cbn [execute] in H'.
  destruct r as [|l a|n]; cbn in H'; try discriminate; destruct counted; try discriminate; injection H' as <-;
    (eexists; split; [reflexivity|intros x; apply In_delete]).
Qed.

Lemma without_keyed names h : NoDup (map r_name h) -> NoDup (map r_name (delete_rows names h)).
Proof.
  intros H. unfold delete_rows. induction h as [|x h IH]; [constructor|]. cbn [map] in H. inversion H as [|? ? Hx H']; subst.
  cbn [filter]. destruct (negb _); [|apply IH; exact H']. cbn [map]. constructor; [|apply IH; exact H'].
  intros Hi. apply Hx. apply in_map_iff in Hi as (y & <- & Hy). apply filter_In in Hy as [Hy _]. apply in_map. exact Hy.
Qed.

(** ** mv *)
Lemma plain_move d dest src : plain_name d dest -> plain_name d src ->
  read_move d (move_text dest src) = Some (dest, src).
Proof.
  intros Hd Hs. unfold read_move, move_text.
  change (B"' WHERE filename = '") with (squote :: (B" WHERE filename = '")).
  change (escape_quote squote dest ++ (squote :: B" WHERE filename = '") ++ escape_quote squote src ++ B"'")
    with (escape_quote squote dest ++ squote :: (B" WHERE filename = '" ++ escape_quote squote src ++ [squote])).
  rewrite lex_strlit_name; [|exact Hd|discriminate|].
  - rewrite strip_prefix_app. rewrite lex_strlit_name; [reflexivity|exact Hs|discriminate|intros _ []].
  - intros Em Hi. apply in_app_or in Hi as [Hi|Hi].
    + cbn in Hi. intuition discriminate.
    + apply in_app_or in Hi as [Hi|[Hi|[]]]; [|discriminate]. apply In_escape in Hi; [|discriminate]. apply Hs in Hi; [exact Hi|exact Em].
Qed.

Lemma mv_cases d src dest ok r counted h h' o : mv d src dest ok r counted h = (h', o) ->
  h' = h \/ exists rows x y rows', h = Some rows /\ read_move d (move_text dest src) = Some (x, y)
             /\ move_rows x y rows = Some rows' /\ h' = Some rows'.
Proof.
  unfold mv. destruct src as [|a src]; [intros [= <- _]; auto|]. destruct dest as [|b dest]; [intros [= <- _]; auto|].
  set (s := a :: src). set (e := b :: dest). clearbody s e.
  destruct (table_exists d ok h) as [[|]|]; [|intros [= <- _]; auto|intros [= <- _]; auto].
  destruct h as [rows|]; [|intros [= <- _]; auto].
  destruct (read_move d (move_text e s)) as [[x y]|] eqn:Er; [|cbn; intros [= <- _]; auto].
  destruct (move_rows x y rows) as [rows'|] eqn:Em; [|cbn; intros [= <- _]; auto].
  cbn [execute]. destruct r as [|l [|]|n]; intros [= <- _]; auto; right; exists rows, x, y, rows'; auto.
Qed.

Lemma rename_spec dest src r : rename dest src r = if beqb (r_name r) src then renamed dest r else r.
Proof. reflexivity. Qed.

Lemma move_moved dest src h h' : move_rows dest src h = Some h' -> moved src dest h h'.
Proof.
  unfold move_rows. destruct (_ && _ && _); [discriminate|]. intros [= <-] r. rewrite in_map_iff. split.
  - intros (r0 & <- & Hr). rewrite rename_spec. destruct (beqb_spec (r_name r0) src) as [E|E].
    + right. exists r0. auto.
    + left. auto.
  - intros [[Hr Hn]|(r0 & Hr & Hn & ->)].
    + exists r. split; [|exact Hr]. rewrite rename_spec. destruct (beqb_spec (r_name r) src); [contradiction|reflexivity].
    + exists r0. split; [|exact Hr]. rewrite rename_spec. destruct (beqb_spec (r_name r0) src); [reflexivity|contradiction].
Qed.

Lemma rename_names dest src h : map r_name (map (rename dest src) h) = map (fun n => if beqb n src then dest else n) (map r_name h).
Proof. rewrite !map_map. apply map_ext. intros r. rewrite rename_spec. destruct (beqb (r_name r) src); reflexivity. Qed.

Lemma move_keyed dest src h h' : NoDup (map r_name h) -> move_rows dest src h = Some h' -> NoDup (map r_name h').
Proof.
  intros Hn. unfold move_rows. destruct (negb (beqb dest src) && bmem src (map r_name h) && bmem dest (map r_name h)) eqn:E; [discriminate|].
  intros [= <-]. rewrite rename_names. revert E Hn. generalize (map r_name h). intros l E Hn.
  destruct (beqb_spec dest src) as [->|Hne].
  - rewrite (map_ext_in _ (fun n => n)); [rewrite map_id; exact Hn|]. intros n _. destruct (beqb_spec n src) as [->|_]; reflexivity.
  - cbn [negb andb] in E.
    assert (Hc : ~ In src l \/ ~ In dest l).
    { destruct (bmem src l) eqn:E1; [right|left]; intros Hi; apply bmem_In in Hi; cbn in E; congruence. }
    clear E. destruct Hc as [Hc|Hc].
    + rewrite (map_ext_in _ (fun n => n)); [rewrite map_id; exact Hn|]. intros n Hi. destruct (beqb_spec n src) as [->|_]; [contradiction|reflexivity].
    + induction l as [|n l IH]; [constructor|]. inversion Hn as [|? ? Hx Hn']; subst. cbn [map]. constructor.
      2:{ apply IH; [exact Hn'|]. intros Hi. apply Hc. right. exact Hi. }
      intros Hi. apply in_map_iff in Hi as (m & Em & Hm).
      assert (n <> dest) by (intros ->; apply Hc; left; reflexivity).
      assert (m <> dest) by (intros ->; apply Hc; right; exact Hm).
      destruct (beqb_spec m src), (beqb_spec n src); congruence.
Qed.

Lemma mv_others d src dest ok r counted rows h' o : plain_name d src -> plain_name d dest ->
  mv d src dest ok r counted (Some rows) = (h', o) ->
  exists rows', h' = Some rows' /\ (rows' = rows \/ moved src dest rows rows').
Proof.
  intros Hs Hd H. apply mv_cases in H as [->|(rows0 & x & y & rows' & [= <-] & Hr & Hm & ->)]; [exists rows; auto|].
  exists rows'. split; [reflexivity|]. right. rewrite (plain_move _ _ _ Hd Hs) in Hr. injection Hr as <- <-.
  apply move_moved. exact Hm.
Qed.

(** If the database executes the statement, the row is renamed. *)
Lemma mv_done d src dest ok r counted rows h' : plain_name d src -> plain_name d dest ->
  mv d src dest ok r counted (Some rows) = (h', Done) ->
  is_ok r = true -> (src = dest \/ ~ In src (map r_name rows) \/ ~ In dest (map r_name rows)) ->
  exists rows', h' = Some rows' /\ moved src dest rows rows'.
Proof.
  intros Hs Hd H Hr Hfree. unfold mv in H.
  destruct src as [|a src]; [discriminate|]. destruct dest as [|b dest]; [discriminate|].
  set (s := a :: src) in *. set (e := b :: dest) in *. clearbody s e.
  rewrite (plain_move _ _ _ Hd Hs) in H.
  destruct (table_exists d ok (Some rows)) as [[|]|] eqn:Et; [| |discriminate].
  2:{ unfold table_exists in Et. destruct d, ok; discriminate. }
  destruct (move_rows e s rows) as [rows'|] eqn:Em.
  - exists rows'. split; [|apply move_moved; exact Em]. cbn [execute] in H. destruct r as [|l a'|n]; try discriminate; injection H as <-; reflexivity.
  - exfalso. unfold move_rows in Em. destruct (negb (beqb e s) && bmem s (map r_name rows) && bmem e (map r_name rows)) eqn:E; [|discriminate].
    apply andb_true_iff in E as [E E3]. apply andb_true_iff in E as [E1 E2]. apply bmem_In in E2, E3.
    destruct Hfree as [->|[Hf|Hf]]; [|contradiction|contradiction]. rewrite beqb_refl in E1. discriminate.
Qed.

Lemma mv_error_of_lookup d src dest r counted h : snd (mv d src dest false r counted h) = Failed.
Proof. unfold mv. destruct src, dest; try reflexivity. destruct d, h; reflexivity. Qed.

(** ** Executed scripts *)
Lemma scripts_app a b : scripts (a ++ b) = scripts a ++ scripts b.
Proof. unfold scripts. apply flat_map_app. Qed.

Lemma loop_scripts c tx done q t res : loop_trace c tx done q t res -> okt t -> snd (fst res) = None ->
  scripts t = map m_name q.
Proof.
  induction 1 as [done r Ht Hk|done l a Ht|done Ht|done m rest b Hd Hb|done m rest x l a b Hd Hb
                 |done m rest x r t res Hd Hk Hs Hl IH|done m rest x r r' t res Hd Hk Hs Hk' Hl IH
                 |done m rest x r l a b Hd Hk Hs Hb]; intros Ho Hn; try discriminate.
  - reflexivity.
  - reflexivity.
  - inversion Ho; subst. cbn. f_equal. apply IH; assumption.
  - inversion Ho as [|? ? _ Ho2]; subst. inversion Ho2; subst. cbn. f_equal. apply IH; assumption.
Qed.
(** Without errors of the database, a batch fails only because of an unreadable script. *)
Lemma loop_lock c tx done q t res : loop_trace c tx done q t res -> okt t -> snd (fst res) <> Some true.
Proof.
  induction 1 as [done r Ht Hk|done l a Ht|done Ht|done m rest b Hd Hb|done m rest x l a b Hd Hb
                 |done m rest x r t res Hd Hk Hs Hl IH|done m rest x r r' t res Hd Hk Hs Hk' Hl IH
                 |done m rest x r l a b Hd Hk Hs Hb]; intros Ho; cbn [fst snd]; try discriminate.
  - inversion Ho; discriminate.
  - inversion Ho; discriminate.
  - inversion Ho; subst. apply IH. assumption.
  - inversion Ho as [|? ? _ Ho2]; subst. inversion Ho2; subst. apply IH. assumption.
  - inversion Ho as [|? ? _ Ho2]; subst. inversion Ho2; discriminate.
Qed.
Lemma run_scripts c q t res : run_trace c q t res -> okt t ->
  (snd (fst res) = None -> scripts t = map m_name q) /\ snd (fst res) <> Some true.
Proof.
  inversion 1 as [l a Ht|r t' res' Ht Hk Hl|t' res' Ht Hl]; subst; intros Ho.
  - inversion Ho; discriminate.
  - inversion Ho; subst. split; [intros Hn; cbn; eapply loop_scripts; eassumption|eapply loop_lock; eassumption].
  - split; [intros Hn; eapply loop_scripts; eassumption|eapply loop_lock; eassumption].
Qed.
Lemma batch_scripts c q t : batch_trace c q t Done -> okt t -> scripts t = map m_name q.
Proof.
  assert (Hre : forall re k q t, retry_trace c re k q t Done -> okt t -> scripts t = map m_name q).
  { clear q t. intros re k q t0 H Ho. remember Done as o eqn:Eo.
    destruct H as [k q t n q' Hr|k q t n q' Hr Hre Hd Hk|k q t n q' Hr Hre Hd Hk Hn|k q t n q' r0 Hr Hre Hd Hk Hn Hng
                  |k q t n q' r0 r' t' o Hr Hre Hd Hk Hn Hng Ht|k q t n l0 q' u Hr Hl Hund Hq'|k q t n l0 q' u r0 Hr Hl Hund Hn Hsk];
      try discriminate.
    - apply (run_scripts c q t _ Hr Ho). reflexivity.
    - destruct (n <? 0)%Z; discriminate.
    - apply Forall_app in Ho as [Ho _]. destruct (run_scripts _ _ _ _ Hr Ho) as [_ Hx]. exfalso. apply Hx. reflexivity. }
  inversion 1; subst; intros Ho; eapply Hre; eassumption.
Qed.
Lemma groups_scripts c fin gs t : groups_trace c fin gs t Done -> okt t -> scripts t = map m_name (concat gs) /\ fin = Done.
Proof.
  intros H. remember Done as o eqn:Eo. induction H as [|g gs t t' o Hg Hgs IH|g gs t o Hg Hne]; intros Ho.
  - auto.
  - apply Forall_app in Ho as [Ho1 Ho2]. destruct (IH Eo Ho2) as [I1 I2]. split; [|exact I2].
    rewrite scripts_app, (batch_scripts _ _ _ Hg Ho1), I1. cbn [concat]. rewrite map_app. reflexivity.
  - congruence.
Qed.
Lemma groups_subset c fin gs t o f x r : groups_trace c fin gs t o -> In (OpExec f x, r) t -> In f (map m_name (concat gs)).
Proof.
  induction 1 as [|g gs t t' o Hg Hgs IH|g gs t o Hg Hne]; intros Hi.
  - destruct Hi.
  - cbn [concat]. rewrite map_app. apply in_or_app. apply in_app_or in Hi as [Hi|Hi]; [left|right; apply IH; exact Hi].
    pose proof (batch_trace_events _ _ _ _ Hg) as He. rewrite Forall_forall in He. apply (He _ Hi).
  - cbn [concat]. rewrite map_app. apply in_or_app. left.
    pose proof (batch_trace_events _ _ _ _ Hg) as He. rewrite Forall_forall in He. apply (He _ Hi).
Qed.

(** ** What migrate keeps *)
Definition kept (c : config) (m : migration) : bool := match decide c m with Keep _ => true | _ => false end.
Lemma decide_name c m m' : decide c m = Keep m' -> m_name m' = m_name m.
Proof.
  unfold decide. destruct (repeatable (m_name m)).
  - destruct (c_dir c (m_name m)); [|discriminate]. destruct (_ && _ && _); [discriminate|]. intros [= <-]. reflexivity.
  - destruct (_ && _); [discriminate|]. intros [= <-]. reflexivity.
Qed.
Lemma plan_kept c ms : forall q,
  (snd (plan c ms q) = Done -> map m_name (concat (fst (plan c ms q))) = map m_name q ++ map m_name (filter (kept c) ms))
  /\ incl (map m_name (concat (fst (plan c ms q)))) (map m_name q ++ map m_name (filter (kept c) ms)).
Proof.
  induction ms as [|m ms IH]; intros q; cbn [plan filter].
  - cbn [fst snd map]. rewrite app_nil_r. destruct q; cbn [concat]; rewrite ?app_nil_r; split; auto; apply incl_refl.
  - assert (Ek : kept c m = match decide c m with Keep _ => true | _ => false end) by reflexivity.
    rewrite Ek. clear Ek. destruct (decide c m) as [| |m'] eqn:Ed.
    + apply IH.
    + split; [discriminate|]. intros x [].
    + cbn [map]. destruct (must_flush (c_dialect c) q m').
      * destruct (IH [m']) as [I1 I2]. destruct (plan c ms [m']) as [gs fin]. cbn [fst snd concat map] in *.
        rewrite map_app. rewrite (decide_name _ _ _ Ed) in *. split.
        -- intros E. rewrite I1 by exact E. reflexivity.
        -- intros x Hi. apply in_app_or in Hi as [Hi|Hi]; apply in_or_app; [left; exact Hi|right; apply I2; exact Hi].
      * destruct (IH (q ++ [m'])) as [I1 I2]. rewrite map_app, <- app_assoc in I1, I2. cbn [map app] in *.
        rewrite (decide_name _ _ _ Ed) in *. split; [exact I1|exact I2].
Qed.

(** ** ls *)
Definition started_ok (h : list row) : Prop := forall r, In r h -> r_success r = true -> r_started r = true.

Definition due_status (s : status) : bool := match s with LsPending | LsFailed => true | _ => false end.

Lemma status_kept c m s : (m_success m = true -> m_started m = true) -> status_of c m = Some s ->
  due_status s = kept c m \/ (due_status s = true /\ decide c m = Unreadable).
Proof.
  intros Hst. unfold status_of, kept, decide.
  destruct (m_valid m); cbn [negb orb].
  2:{ intros [= <-]. cbn [due_status]. destruct (repeatable (m_name m)); [|auto].
      destruct (c_dir c (m_name m)); [|auto]. rewrite andb_false_r. auto. }
  destruct (m_started m); cbn [negb].
  2:{ intros [= <-]. cbn [due_status]. destruct (m_success m); [specialize (Hst eq_refl); discriminate|].
      destruct (repeatable (m_name m)); [|auto]. destruct (c_dir c (m_name m)); [|auto]. rewrite !andb_false_r. auto. }
  destruct (m_success m); cbn [negb].
  2:{ intros [= <-]. cbn [due_status]. destruct (repeatable (m_name m)); [|auto].
      destruct (c_dir c (m_name m)); [|auto]. rewrite !andb_false_r. auto. }
  destruct (repeatable (m_name m)).
  - destruct (c_dir c (m_name m)); [|discriminate]. destruct (beqb _ _); cbn [negb andb]; intros [= <-]; auto.
  - intros [= <-]. auto.
Qed.

Lemma ls_loop_shown c fl ms l : included fl LsPending = true -> included fl LsFailed = true ->
  Forall (fun m => m_success m = true -> m_started m = true) ms ->
  ls_loop c fl ms = (l, true) ->
  incl (map m_name (filter (kept c) ms)) (shown l)
  /\ (Forall (fun m => decide c m <> Unreadable) ms -> shown l = map m_name (filter (kept c) ms)).
Proof.
  intros Hp Hf. revert l. induction ms as [|m ms IH]; intros l Hall H; cbn [ls_loop] in H.
  - injection H as <-. split; [intros x []|reflexivity].
  - inversion Hall as [|? ? Hm Hms]; subst. destruct (status_of c m) as [s|] eqn:Es; [|discriminate].
    destruct (ls_loop c fl ms) as [l' ok] eqn:El.
    assert (Hok : ok = true) by (destruct (included fl s); congruence). subst ok.
    destruct (IH l' Hms eq_refl) as [I1 I2].
    assert (Hsh : shown l = (if due_status s then [m_name m] else []) ++ shown l').
    { destruct (included fl s) eqn:Ei; injection H as <-.
      - unfold shown. cbn [filter fst]. destruct s; reflexivity.
      - destruct s; [congruence|reflexivity|congruence|reflexivity]. }
    rewrite Hsh. cbn [filter]. destruct (status_kept _ _ _ Hm Es) as [E|[E Ed]].
    + rewrite <- E. destruct (due_status s); cbn [map app].
      * split; [intros x [<-|Hx]; [left; reflexivity|right; apply I1; exact Hx]|].
        intros Hd. inversion Hd; subst. f_equal. apply I2. assumption.
      * split; [exact I1|]. intros Hd. inversion Hd; subst. apply I2. assumption.
    + rewrite E. assert (Hk : kept c m = false) by (unfold kept; rewrite Ed; reflexivity). rewrite Hk. cbn [app]. split.
      * intros x Hx. right. apply I1. exact Hx.
      * intros Hd. inversion Hd; subst. contradiction.
Qed.

Lemma plan_readable c ms : forall q, snd (plan c ms q) = Done -> Forall (fun m => decide c m <> Unreadable) ms.
Proof.
  induction ms as [|m ms IH]; intros q H; cbn [plan] in H; [constructor|].
  destruct (decide c m) as [| |m'] eqn:Ed; [|discriminate|].
  - constructor; [congruence|]. eapply IH. exact H.
  - constructor; [congruence|]. destruct (must_flush _ _ _); [|eapply IH; exact H].
    destruct (plan c ms [m']) as [gs f] eqn:Ep. cbn [snd] in H. subst f. apply (IH [m']). rewrite Ep. reflexivity.
Qed.

Lemma load_started files rows : started_ok rows ->
  Forall (fun m => m_success m = true -> m_started m = true) (load_migrations files rows).
Proof.
  intros Hr. induction files as [|f files IH]; cbn [load_migrations]; [constructor|]. constructor; [|exact IH].
  destruct (bmem f files); [discriminate|]. destruct (lookup f (rev rows)) as [r|] eqn:El; [|discriminate].
  cbn. apply Hr. apply in_rev. eapply lookup_In. exact El.
Qed.

Lemma shown_app a b : shown (a ++ b) = shown a ++ shown b.
Proof. unfold shown. rewrite filter_app, map_app. reflexivity. Qed.
Lemma shown_missing l : shown (map (fun f => (LsMissing, f)) l) = [].
Proof. induction l; [reflexivity|assumption]. Qed.

(** A successful ls has gone through the scripts that migrate would load. *)
Lemma ls_done c fl walk ok r r' sorted h l :
  ls c fl walk ok r r' sorted h = (l, Done) -> (forall n, r <> RVal n) ->
  exists lines, shown l = shown lines
    /\ forall names, query_names (c_dialect c) (sort_and_filter walk) = Some names ->
         ls_loop c fl (load_migrations (sort_and_filter walk) (select_rows names (table h))) = (lines, true).
Proof.
  intros H Hr. unfold ls in H. destruct (table_exists (c_dialect c) ok h) as [b|]; [|discriminate].
  destruct h as [rows|]; cbn [table].
  - destruct (query_names (c_dialect c) (sort_and_filter walk)) as [names|]; [|discriminate].
    destruct (is_ok r) eqn:Er; [|discriminate].
    assert (Hd : delivered r (select_rows names rows) = select_rows names rows).
    { destruct r as [|x y|n]; [reflexivity|discriminate|]. exfalso. apply (Hr n). reflexivity. }
    rewrite Hd in H. destruct (ls_loop c fl _) as [lines went] eqn:El. destruct went; [|discriminate].
    exists lines. split.
    + destruct (included fl LsMissing); [|injection H as <-; reflexivity].
      destruct (is_ok r'); [|discriminate]. cbn zeta in H. injection H as <-. rewrite shown_app, shown_missing, app_nil_r. reflexivity.
    + intros names' [= <-]. exact El.
  - destruct (ls_loop c fl _) as [lines went] eqn:El. destruct went; [|discriminate]. injection H as <-.
    exists lines. split; [reflexivity|]. intros names _. exact El.
Qed.

Lemma ls_migrate c fl walk ok r r' sorted h l rs t o :
  c_skip_history c = false -> started_ok (table h) ->
  included fl LsPending = true -> included fl LsFailed = true ->
  ls c fl walk ok r r' sorted h = (l, Done) -> (forall n, r <> RVal n) ->
  migrate c walk [] (table h) rs = (t, o) -> full_read t ->
  (forall f, In f (scripts t) -> In f (shown l))
  /\ (o = Done -> all_ok t -> scripts t = shown l).
Proof.
  intros Hsk Hst Hp Hf Hls Hr Hm Hfull.
  destruct (ls_done _ _ _ _ _ _ _ _ _ Hls Hr) as (lines & -> & Hloop).
  apply migrate_migrate_trace in Hm.
  inversion Hm as [Hs|files' t' o' Hs Hsk' Ht|files' r0 Hs Hsk' Hbad|files' names r0 lk a Hs Hsk' Hk Hq
                 |files' names r0 r1 t' o' Hs Hsk' Hk Hq Hk' Ht]; subst.
  - discriminate.
  - congruence.
  - split; [intros f []|]. discriminate.
  - split; [intros f []|]. discriminate.
  - injection Hs as <-. specialize (Hloop _ Hq).
    assert (Hd : delivered r1 (select_rows names (table h)) = select_rows names (table h)).
    { destruct r1 as [|x y|n]; [reflexivity|discriminate|]. exfalso. apply (Hfull n). right. left. reflexivity. }
    rewrite Hd in Ht.
    assert (Hst' : started_ok (select_rows names (table h))).
    { intros x Hx. apply filter_In in Hx as [Hx _]. apply Hst. exact Hx. }
    set (ms := load_migrations (sort_and_filter walk) (select_rows names (table h))) in *.
    pose proof (load_started (sort_and_filter walk) _ Hst') as Hms. fold ms in Hms.
    destruct (ls_loop_shown c fl ms lines Hp Hf Hms Hloop) as [I1 I2].
    destruct (plan_kept c ms []) as [P1 P2]. cbn [map app] in P1, P2. split.
    + intros f Hi. change (In f (scripts t')) in Hi. unfold scripts in Hi. apply in_flat_map in Hi as ([op0 rp] & Hi & Hfi).
      cbn [fst] in Hfi. destruct op0; try contradiction. destruct Hfi as [<-|[]].
      apply I1, P2. eapply groups_subset; [exact Ht|exact Hi].
    + intros -> Hok. apply all_ok_iff in Hok. inversion Hok as [|? ? _ Hok2]; subst. inversion Hok2 as [|? ? _ Hok3]; subst.
      change (scripts t' = shown lines). destruct (groups_scripts _ _ _ _ Ht Hok3) as [E Ef]. rewrite E.
      rewrite I2 by (eapply plan_readable; exact Ef). apply P1. exact Ef.
Qed.

(** ** Histories written by the tool *)
Definition started_rows (e : event) : Prop :=
  match fst e with OpUpsert rows => started_ok rows | _ => True end.

Lemma rolled_started tx b : rolled tx b -> Forall started_rows b.
Proof. inversion 1; repeat constructor. Qed.
Lemma success_started m : started_ok [success_row m].
Proof. intros r [<-|[]] _. reflexivity. Qed.
Lemma failure_started q : started_ok (map failure_row q).
Proof. intros r Hr Hs. apply in_map_iff in Hr as (m & <- & _). discriminate. Qed.
Lemma loop_started c tx done q t res : loop_trace c tx done q t res -> Forall started_rows t.
Proof.
  induction 1; repeat (constructor; [first [exact I|apply success_started]|]); try constructor; try assumption;
    eapply rolled_started; eassumption.
Qed.
Lemma run_started c q t res : run_trace c q t res -> Forall started_rows t.
Proof.
  inversion 1; subst; [repeat constructor|constructor; [exact I|]|]; eapply loop_started; eassumption.
Qed.
Lemma undone_started c re q u : undone c re q u -> Forall started_rows u.
Proof. inversion 1; repeat constructor. Qed.
Lemma retry_started c re k q t o : retry_trace c re k q t o -> Forall started_rows t.
Proof.
  induction 1; try (eapply run_started; eassumption); apply Forall_app;
    (split; [eapply run_started; eassumption|]); repeat (constructor; [exact I|]); try constructor; try assumption.
  - eapply undone_started; eassumption.
  - apply Forall_app. split; [eapply undone_started; eassumption|]. repeat constructor. apply failure_started.
Qed.
Lemma batch_started c q t o : batch_trace c q t o -> Forall started_rows t.
Proof. inversion 1; subst; [|constructor|]; eapply retry_started; eassumption. Qed.
Lemma groups_started c fin gs t o : groups_trace c fin gs t o -> Forall started_rows t.
Proof.
  induction 1 as [|g gs t t' o Hg Hgs IH|g gs t o Hg Hne]; [constructor| |eapply batch_started; eassumption].
  apply Forall_app. split; [eapply batch_started; eassumption|exact IH].
Qed.
Lemma migrate_started c walk args h rs t o : migrate c walk args h rs = (t, o) -> Forall started_rows t.
Proof.
  intros H. apply migrate_migrate_trace in H. inversion H; subst; try (repeat constructor; fail).
  - eapply groups_started; eassumption.
  - constructor; [exact I|]. constructor; [exact I|]. eapply groups_started; eassumption.
Qed.

Lemma upsert_started rows h : started_ok rows -> started_ok h -> started_ok (upsert_all rows h).
Proof. intros Hr Hh r Hi. apply In_upsert_all in Hi as [Hi|Hi]; [apply Hr|apply Hh]; exact Hi. Qed.

Lemma interp_started t : forall st, Forall started_rows t ->
  started_ok (hist (committed st)) -> started_ok (hist (current st)) -> started_ok (hist (committed (interp st t))).
Proof.
  induction t as [|[o r] t IH]; intros st Hall Hc Hw; [exact Hc|]. inversion Hall as [|? ? He Ht]; subst.
  change (interp st ((o, r) :: t)) with (interp (step st (o, r)) t).
  assert (Hs : started_ok (hist (committed (step st (o, r)))) /\ started_ok (hist (current (step st (o, r))))).
  { clear IH Ht Hall. unfold started_rows in He. cbn [fst] in He.
    destruct st as [cm [w|]], o; try (destruct r as [|[|] [|]|n]);
      unfold current in *; cbn [step is_ok committed working hist] in *;
      unfold add_effect, write_rows, commit, abort, update, current in *; cbn [committed working hist] in *;
      auto using upsert_started. }
  apply IH; [exact Ht|apply Hs|apply Hs].
Qed.
Lemma after_started s t : Forall started_rows t -> started_ok (hist s) -> started_ok (hist (after s t)).
Proof. intros Ht Hs. apply interp_started; [exact Ht|exact Hs|exact Hs]. Qed.

Lemma written_ok h : written h -> started_ok h /\ NoDup (map r_name h).
Proof.
  induction 1 as [|c walk args h rs t o p s Hw [I1 I2] Hm Hp|c walk args rs t o p s Hw [I1 I2] Hm Hp
                 |d files ok r counted h h' o Hw [I1 I2] Hm|d src dest ok r counted h h' o Hw [I1 I2] Hm].
  - split; [intros r []|constructor].
  - split; [|apply after_keyed; exact I2]. apply after_started; [|exact I1].
    eapply prefix_Forall; [exact Hp|]. eapply migrate_started. exact Hm.
  - split; [|apply after_keyed; exact I2]. destruct (touch_atomic _ _ _ s _ _ _ _ Hm Hp) as [->|(files & _ & ->)]; [exact I1|].
    apply upsert_started; [|exact I1]. intros r Hr _. apply in_map_iff in Hr as (f & <- & _). reflexivity.
  - apply rm_cases in Hm as [[= ->]|(rows & names & [= <-] & _ & [= ->])]; [auto|].
    split; [|apply without_keyed; exact I2]. intros x Hx. apply In_delete in Hx as [Hx _]. apply I1. exact Hx.
  - apply mv_cases in Hm as [[= ->]|(rows & x & y & rows' & [= <-] & _ & Hr & [= ->])]; [auto|].
    split; [|eapply move_keyed; eassumption]. intros z Hz. apply (move_moved _ _ _ _ Hr) in Hz as [[Hz _]|(r0 & Hz & _ & ->)].
    + apply I1. exact Hz.
    + cbn. apply I1. exact Hz.
Qed.

(** ** Runs without errors execute the pending scripts *)
Lemma ok_run_scripts c walk args files h p rs t :
  clean c walk args files -> NoDup (map r_name h) -> pending c h files p ->
  migrate c walk args h rs = (t, Done) -> full_read t -> all_ok t -> scripts t = p.
Proof.
  intros Hcl Hh Hp Hm Hfull Hok. apply all_ok_iff in Hok.
  pose proof (migrate_clean _ _ _ _ _ _ _ _ _ Hcl Hh Hp Hm Hfull) as H. remember Done as o eqn:Eo.
  destruct H as [t Ht|t0 t o Ht Hg]; [discriminate|]. subst o. apply Forall_app in Hok as [_ Hok].
  rewrite scripts_app. destruct (groups_scripts _ _ _ _ Hg Hok) as [-> _].
  destruct (batches_start (c_dialect c) (map (due c (seen c h)) p)) as (_ & -> & _).
  rewrite names_due. assert (E : scripts t0 = []); [|rewrite E; reflexivity].
  clear - Ht. induction Ht as [|[o r] t0 He Ht IH]; [reflexivity|]. unfold scripts in *. cbn [flat_map fst]. rewrite IH, app_nil_r.
  destruct o; try reflexivity. discriminate.
Qed.

Lemma rm_pending c files removed h h' p p' : c_skip_history c = false -> without removed h h' ->
  pending c h files p -> pending c h' files p' ->
  forall f, In f p' <-> In f p \/ (In f removed /\ In f files).
Proof.
  intros Hsk Hw Hp Hp' f. rewrite (pending_In _ _ _ _ Hp), (pending_In _ _ _ _ Hp').
  assert (Hu : up_to_date c h' f <-> up_to_date c h f /\ ~ In f removed).
  { split.
    - intros (r & Hr & <- & Hx). apply Hw in Hr as [Hr Hn]. split; [exists r; auto|exact Hn].
    - intros [(r & Hr & <- & Hx) Hn]. exists r. split; [apply Hw; auto|auto]. }
  destruct (in_dec (list_eq_dec Ascii.ascii_dec) f removed) as [Hd|Hd]; rewrite Hu; intuition congruence.
Qed.

(** ** touch *)
Lemma In_upsert_other rows h r : ~ In (r_name r) (map r_name rows) -> In r (upsert_all rows h) <-> In r h.
Proof.
  revert h. induction rows as [|x rows IH]; intros h Hn; [tauto|]. cbn [map In] in Hn.
  unfold upsert_all. cbn [fold_left]. fold (upsert_all rows (upsert x h)). rewrite IH by tauto.
  assert (Hx : r_name x <> r_name r) by tauto. clear - Hx. induction h as [|y h IH]; cbn [upsert In].
  - split; [intros [->|[]]; congruence|intros []].
  - destruct (beqb_spec (r_name y) (r_name x)) as [E|E]; cbn [In].
    + split; intros [H|H]; auto; subst; congruence.
    + rewrite IH. tauto.
Qed.

Lemma touch_others c walk args s rs t o p : touch c walk args rs = (t, o) -> prefix p t ->
  data (after s p) = data s
  /\ forall files r, selected_files c walk args = Some files -> ~ In (r_name r) files ->
       (In r (hist (after s p)) <-> In r (hist s)).
Proof.
  intros H Hp. destruct (touch_atomic _ _ _ s _ _ _ _ H Hp) as [->|(files & Hs & ->)]; [split; [reflexivity|tauto]|].
  split; [reflexivity|]. intros files' r Hs' Hr. assert (files' = files) by congruence. subst files'. cbn [hist touched_all].
  apply In_upsert_other. rewrite map_map. cbn [r_name touched]. rewrite map_id. exact Hr.
Qed.

Lemma touched_up_to_date c files h f : NoDup (map r_name h) -> In f files ->
  (repeatable f = true -> readable c f) -> up_to_date c (upsert_all (map (touched c) files) h) f.
Proof.
  intros Hh Hf Hr. apply up_to_date_lookup; [apply upsert_all_NoDup; exact Hh|]. exists (touched c f).
  split; [apply lookup_touched; exact Hf|]. split; [reflexivity|]. intros Hrep. apply repeatable_iff in Hrep.
  specialize (Hr Hrep). unfold readable in Hr. destruct (c_dir c f) as [x|] eqn:Ed; [|congruence]. exists x.
  split; [reflexivity|]. cbn [r_checksum touched]. rewrite Hrep. unfold checksum_of, contents_of. rewrite Ed, lf_only_replace. reflexivity.
Qed.

Lemma touch_then_migrate c walk args files s rs t rs2 t2 o2 :
  clean c walk args files -> c_skip_history c = false -> NoDup (map r_name (hist s)) ->
  touch c walk args rs = (t, Done) ->
  migrate c walk args (hist (after s t)) rs2 = (t2, o2) -> full_read t2 -> no_exec t2.
Proof.
  intros Hcl Hsk Hh Ht Hm Hfull. destruct (touch_done _ _ _ s _ _ Ht) as (files' & Hs & Ha & Hread).
  assert (files' = files) by (pose proof (cl_files _ _ _ _ Hcl); congruence). subst files'.
  assert (Hh' : NoDup (map r_name (hist (after s t)))) by (apply after_keyed; exact Hh).
  intros f x r Hi.
  assert (Hf : In f files).
  { pose proof (executes_selected _ _ _ _ _ _ _ _ _ _ Hm Hi) as (Hsc & Hin & _).
    rewrite (cl_files _ _ _ _ Hcl) in Hs.
    assert (Hx : forall l, In f l -> In f (sort_and_filter l)).
    { intros l Hl. rewrite sort_and_filter_spec. apply skipped_iff in Hsc. apply in_or_app.
      destruct (repeatable f) eqn:E; [right|left]; apply filter_In; rewrite Hsc, E; auto. }
    pose proof (cl_files _ _ _ _ Hcl) as Hsel. unfold selected_files in Hsel.
    destruct args; [injection Hsel as <-; apply Hx; exact Hin|].
    destruct (forallb _ _); [|discriminate]. injection Hsel as <-. apply Hx. exact Hin. }
  assert (Hu : up_to_date c (hist (after s t)) f).
  { rewrite Ha. apply touched_up_to_date; [exact Hh|exact Hf|]. apply Hread. exact Hf. }
  destruct (no_exec_up_to_date _ _ _ _ _ _ _ _ f Hcl Hsk Hh' Hm Hfull Hu) as [Hn _]. exact (Hn _ _ Hi).
Qed.

Lemma touch_checksums c walk args files s rs t f : NoDup (map r_name (hist s)) ->
  touch c walk args rs = (t, Done) -> selected_files c walk args = Some files -> In f files ->
  exists r, In r (hist (after s t)) /\ r_name r = f /\ r_success r = true
    /\ (forall r', In r' (hist (after s t)) -> r_name r' = f -> r' = r)
    /\ (is_repeatable f -> exists x, c_dir c f = Some x /\ r_checksum r = Some (c_hash c (lf_only x)))
    /\ (~ is_repeatable f -> r_checksum r = None).
Proof.
  intros Hh Ht Hs Hf. destruct (touch_done _ _ _ s _ _ Ht) as (files' & Hs' & Ha & Hread).
  assert (files' = files) by congruence. subst files'.
  assert (Hl : lookup f (hist (after s t)) = Some (touched c f)) by (rewrite Ha; apply lookup_touched; exact Hf).
  exists (touched c f). split; [eapply lookup_In; exact Hl|]. split; [reflexivity|]. split; [reflexivity|]. split.
  { intros r' Hr' En. assert (Hk : NoDup (map r_name (hist (after s t)))) by (apply after_keyed; exact Hh).
    pose proof (NoDup_lookup_In _ _ Hk Hr') as Hx. rewrite En in Hx. congruence. }
  split.
  - intros Hrep. apply repeatable_iff in Hrep. specialize (Hread f Hf Hrep). unfold readable in Hread.
    destruct (c_dir c f) as [x|] eqn:Ed; [|congruence]. exists x. split; [reflexivity|]. cbn [r_checksum touched]. rewrite Hrep.
    unfold checksum_of, contents_of. rewrite Ed, lf_only_replace. reflexivity.
  - intros Hn. cbn [r_checksum touched]. destruct (repeatable f) eqn:E; [apply repeatable_iff in E; contradiction|reflexivity].
Qed.

(** ** The missing scripts *)
Lemma ls_loop_missing c fl ms : ~ In LsMissing (map fst (fst (ls_loop c fl ms))).
Proof.
  induction ms as [|m ms IH]; [intros []|]. cbn [ls_loop]. destruct (status_of c m) as [s|] eqn:Es; [|intros []].
  assert (Hs : s <> LsMissing).
  { intros ->. unfold status_of in Es. destruct (_ || _); [discriminate|]. destruct (negb _); [discriminate|].
    destruct (repeatable _); [|discriminate]. destruct (c_dir c _); [|discriminate]. destruct (negb _); discriminate. }
  destruct (ls_loop c fl ms) as [l ok]. cbn [fst] in IH. destruct (included fl s); [|exact IH].
  cbn [fst map In]. intros [H|H]; [congruence|exact (IH H)].
Qed.

Lemma ls_missing c fl walk ok r r' sorted h l :
  Forall (plain_name (c_dialect c)) (sort_and_filter walk) ->
  (forall l f, In f (sorted l) <-> In f l) -> included fl LsMissing = true ->
  ls c fl walk ok r r' sorted h = (l, Done) -> (forall n, r' <> RVal n) ->
  forall f, In (LsMissing, f) l <-> In f (map r_name (table h)) /\ ~ In f (sort_and_filter walk).
Proof.
  intros Hp Hsort Hm H Hr f. unfold ls in H. destruct (table_exists (c_dialect c) ok h) as [b|]; [|discriminate].
  destruct h as [rows|]; cbn [table].
  - destruct (query_names (c_dialect c) (sort_and_filter walk)) as [names|] eqn:Eq; [|discriminate].
    apply (plain_query _ _ Hp) in Eq. subst names. destruct (is_ok r); [|discriminate].
    pose proof (ls_loop_missing c fl (load_migrations (sort_and_filter walk) (delivered r (select_rows (sort_and_filter walk) rows)))) as Hno.
    destruct (ls_loop c fl _) as [lines went]. cbn [fst] in Hno. destruct went; [|discriminate]. rewrite Hm in H.
    destruct (is_ok r') eqn:Er'; [|discriminate]. cbn zeta in H.
    assert (El : l = lines ++ map (fun f => (LsMissing, f)) (sorted (map r_name (delete_rows (sort_and_filter walk) rows)))).
    { destruct r' as [|x y|n]; [congruence|discriminate|]. exfalso. exact (Hr n eq_refl). }
    subst l. clear H. rewrite in_app_iff, in_map_iff. split.
    + intros [Hi|(g & [= ->] & Hg)].
      * exfalso. apply Hno. apply in_map_iff. exists (LsMissing, f). auto.
      * apply (proj1 (Hsort _ _)) in Hg. apply in_map_iff in Hg as (x & <- & Hx). apply In_delete in Hx as [Hx Hn].
        split; [apply in_map; exact Hx|exact Hn].
    + intros [Hi Hn]. right. exists f. split; [reflexivity|]. apply Hsort. apply in_map_iff in Hi as (x & <- & Hx).
      apply in_map. apply In_delete. auto.
  - pose proof (ls_loop_missing c fl (load_migrations (sort_and_filter walk) [])) as Hno.
    destruct (ls_loop c fl _) as [lines went]. cbn [fst] in Hno. destruct went; [|discriminate]. injection H as <-.
    cbn [map In]. split; [|tauto]. intros Hi. exfalso. apply Hno. apply in_map_iff. exists (LsMissing, f). auto.
Qed.

(** What the status words mean. *)
Lemma ls_loop_lines c fl ms l : ls_loop c fl ms = (l, true) ->
  forall s f, In (s, f) l <-> included fl s = true /\ exists m, In m ms /\ m_name m = f /\ status_of c m = Some s.
Proof.
  revert l. induction ms as [|m ms IH]; intros l H s f; cbn [ls_loop] in H.
  - injection H as <-. cbn. split; [intros []|intros (_ & m & [] & _)].
  - destruct (status_of c m) as [s0|] eqn:Es; [|discriminate]. destruct (ls_loop c fl ms) as [l' ok].
    assert (ok = true) by (destruct (included fl s0); congruence). subst ok. specialize (IH l' eq_refl s f).
    destruct (included fl s0) eqn:Ei; injection H as <-.
    + cbn [In]. rewrite IH. split.
      * intros [[= <- <-]|(Hi & m' & Hm & Hx)]; [split; [exact Ei|]; exists m; auto|split; [exact Hi|]; exists m'; auto].
      * intros (Hi & m' & [<-|Hm] & En & Est); [left; congruence|right; split; [exact Hi|]; exists m'; auto].
    + rewrite IH. split.
      * intros (Hi & m' & Hm & Hx). split; [exact Hi|]. exists m'. split; [right; exact Hm|exact Hx].
      * intros (Hi & m' & [<-|Hm] & En & Est); [congruence|split; [exact Hi|]; exists m'; auto].
Qed.

Lemma ls_clean c fl walk files ok r r' sorted h l :
  clean c walk [] files -> c_skip_history c = false -> NoDup (map r_name (table h)) ->
  ls c fl walk ok r r' sorted h = (l, Done) -> (forall n, r <> RVal n) ->
  exists lines, ls_loop c fl (map (entry (table h)) files) = (lines, true)
    /\ forall s f, s <> LsMissing -> (In (s, f) l <-> In (s, f) lines).
Proof.
  intros Hcl Hsk Hh H Hr. pose proof (cl_files _ _ _ _ Hcl) as Hf. injection Hf as Hf.
  unfold ls in H. rewrite Hf in H. destruct (table_exists (c_dialect c) ok h) as [b|]; [|discriminate].
  assert (Hload : forall names rows, NoDup (map r_name rows) -> query_names (c_dialect c) files = Some names ->
             load_migrations files (select_rows names rows) = map (entry rows) files).
  { intros names rows Hn Hq. apply load_entry; [exact Hn|apply (cl_nodup _ _ _ _ Hcl)|].
    rewrite (plain_query _ _ (cl_names _ _ _ _ Hcl Hsk) _ Hq). apply incl_refl. }
  destruct h as [rows|]; cbn [table] in *.
  - destruct (query_names (c_dialect c) files) as [names|] eqn:Eq; [|discriminate].
    destruct (is_ok r) eqn:Er; [|discriminate].
    assert (Hd : delivered r (select_rows names rows) = select_rows names rows).
    { destruct r as [|x y|n]; [reflexivity|discriminate|]. exfalso. apply (Hr n). reflexivity. }
    rewrite Hd, (Hload names rows Hh eq_refl) in H.
    destruct (ls_loop c fl (map (entry rows) files)) as [lines went]. destruct went; [|discriminate].
    exists lines. split; [reflexivity|]. intros s f Hs.
    destruct (included fl LsMissing); [|injection H as <-; tauto].
    destruct (is_ok r'); [|discriminate]. cbn zeta in H. injection H as <-.
    rewrite in_app_iff, in_map_iff. split; [|tauto]. intros [Hi|(g & [= <- _] & _)]; [exact Hi|congruence].
  - assert (El : load_migrations files [] = map (entry []) files).
    { clear. induction files as [|f files IH]; [reflexivity|]. cbn [load_migrations map]. rewrite IH. f_equal.
      destruct (bmem f files); reflexivity. }
    rewrite El in H. destruct (ls_loop c fl (map (entry []) files)) as [lines went]. destruct went; [|discriminate].
    injection H as <-. exists lines. split; [reflexivity|tauto].
Qed.

Lemma ls_statuses c fl walk files ok r r' sorted h l :
  clean c walk [] files -> c_skip_history c = false -> NoDup (map r_name (table h)) -> started_ok (table h) ->
  ls c fl walk ok r r' sorted h = (l, Done) -> (forall n, r <> RVal n) ->
  forall f,
  (In (LsApplied, f) l <-> included fl LsApplied = true /\ In f files /\ up_to_date c (table h) f)
  /\ (In (LsFailed, f) l <-> included fl LsFailed = true /\ In f files
       /\ exists row, In row (table h) /\ r_name row = f /\ r_started row = true /\ r_success row = false)
  /\ (In (LsPending, f) l <-> included fl LsPending = true /\ In f files /\ ~ up_to_date c (table h) f
       /\ ~ exists row, In row (table h) /\ r_name row = f /\ r_started row = true /\ r_success row = false).
Proof.
  intros Hcl Hsk Hh Hst H Hr f.
  destruct (ls_clean _ _ _ _ _ _ _ _ _ _ Hcl Hsk Hh H Hr) as (lines & Hloop & Hl).
  rewrite !Hl by discriminate. rewrite !(ls_loop_lines _ _ _ _ Hloop). clear H Hl.
  assert (He : forall s, (exists m, In m (map (entry (table h)) files) /\ m_name m = f /\ status_of c m = Some s)
                 <-> In f files /\ status_of c (entry (table h) f) = Some s).
  { intros s. split.
    - intros (m & Hm & En & Es). apply in_map_iff in Hm as (g & <- & Hg). rewrite entry_name in En. subst g. auto.
    - intros [Hf Es]. exists (entry (table h) f). split; [apply in_map; exact Hf|]. split; [apply entry_name|exact Es]. }
  rewrite !He. clear He.
  assert (Hrow : forall P : row -> Prop, (exists row, In row (table h) /\ r_name row = f /\ P row)
                 <-> exists row, lookup f (table h) = Some row /\ P row).
  { intros P. split.
    - intros (row & Hi & <- & HP). exists row. split; [apply NoDup_lookup_In; assumption|exact HP].
    - intros (row & Hi & HP). exists row. split; [eapply lookup_In; exact Hi|]. split; [eapply lookup_name; exact Hi|exact HP]. }
  rewrite (Hrow (fun row => r_started row = true /\ r_success row = false)). clear Hrow.
  assert (Hs : In f files ->
     (status_of c (entry (table h) f) = Some LsApplied <-> up_to_date c (table h) f)
     /\ (status_of c (entry (table h) f) = Some LsFailed <-> exists row, lookup f (table h) = Some row /\ r_started row = true /\ r_success row = false)
     /\ (status_of c (entry (table h) f) = Some LsPending <-> ~ up_to_date c (table h) f
         /\ ~ exists row, lookup f (table h) = Some row /\ r_started row = true /\ r_success row = false)).
  { intros Hf. pose proof (cl_read _ _ _ _ Hcl) as Hrd. rewrite Forall_forall in Hrd. specialize (Hrd f Hf).
    pose proof (cl_hash _ _ _ _ Hcl) as Hg.
    rewrite (up_to_date_lookup c _ f Hh). unfold status_of. rewrite entry_name. unfold entry.
    destruct (lookup f (table h)) as [row|] eqn:El; cbn [fresh of_row m_valid m_started m_success m_checksum negb orb].
    2:{ split; [|split]; split; try discriminate.
        - intros (row & Hx & _). discriminate.
        - intros (row & Hx & _). discriminate.
        - intros _. split; intros (row & Hx & _); discriminate.
        - reflexivity. }
    assert (Hrs : r_success row = true -> r_started row = true) by (apply Hst; eapply lookup_In; exact El).
    destruct (r_started row) eqn:Est; cbn [negb].
    2:{ destruct (r_success row) eqn:Esu; [specialize (Hrs eq_refl); discriminate|].
        split; [|split]; split; try discriminate.
        - intros (x & [= <-] & Hx & _). congruence.
        - intros (x & [= <-] & Hx & _). congruence.
        - intros _. split; intros (x & [= <-] & Hx & _); congruence.
        - reflexivity. }
    destruct (r_success row) eqn:Esu; cbn [negb].
    2:{ split; [|split]; split; try discriminate.
        - intros (x & [= <-] & Hx & _). congruence.
        - intros _. exists row. auto.
        - intros _. reflexivity.
        - intros [_ Hx]. exfalso. apply Hx. exists row. auto. }
    assert (Hnf : ~ exists row0, Some row = Some row0 /\ r_started row0 = true /\ r_success row0 = false)
      by (intros (x & [= <-] & _ & Hx); congruence).
    destruct (repeatable f) eqn:Erep.
    - unfold readable in Hrd. destruct (c_dir c f) as [x|] eqn:Ed; [|congruence].
      assert (Hup : (exists r0, Some row = Some r0 /\ r_success r0 = true /\
               (is_repeatable f -> exists x0, Some x = Some x0 /\ r_checksum r0 = Some (c_hash c (lf_only x0))))
               <-> beqb (checksum_of c x) match r_checksum row with Some k => k | None => [] end = true).
      { unfold checksum_of. rewrite <- lf_only_replace. split.
        - intros (r0 & [= <-] & _ & Hx). destruct Hx as (x0 & [= <-] & ->); [apply repeatable_iff; exact Erep|]. apply beqb_refl.
        - intros Hb. exists row. split; [reflexivity|]. split; [exact Esu|]. intros _. exists x. split; [reflexivity|].
          destruct (beqb_spec (c_hash c (lf_only x)) match r_checksum row with Some k => k | None => [] end) as [E|E]; [|discriminate].
          destruct (r_checksum row) as [k|]; [congruence|]. exfalso. exact (Hg _ E). }
      rewrite Hup. destruct (beqb _ _); cbn [negb]; intuition congruence.
    - assert (Hnr : ~ is_repeatable f) by (intros Hx; apply repeatable_iff in Hx; congruence).
      assert (Hup : exists r0, Some row = Some r0 /\ r_success r0 = true /\
               (is_repeatable f -> exists x0, c_dir c f = Some x0 /\ r_checksum r0 = Some (c_hash c (lf_only x0)))).
      { exists row. split; [reflexivity|]. split; [exact Esu|]. intros Hx. contradiction. }
      split; [|split]; split; try discriminate; try tauto. }
  split; [|split]; (split; [intros (Hi & Hf & Es)|intros (Hi & Hf & Es)]; (split; [exact Hi|]; split; [exact Hf|]; apply (Hs Hf); exact Es)).
Qed.
