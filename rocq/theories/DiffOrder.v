(** Foreign keys, C40. *)
From Coq Require Import Lia Permutation.
From Verif Require Import GoStr GoStrFacts ModelCatalog ModelCache CacheFacts ModelDdl ModelDiff ModelDiffSql SpecDiff DiffLookup DiffFacts DiffSelf DiffSqlite DiffPlan DiffSegments DiffDrops DiffKeys DiffCreate.

(** ** Alterations *)
Lemma alter_is_the : forall d cat drop src dest a, sql_dialect d = true -> unique_tables src -> unique_tables dest ->
  In a (flat_map ch_alter (all_changes (pure_alter d cat drop) drop src dest)) ->
  exists s t, In (s, t) (old_tables src dest) /\ a = the_alter d cat drop s t.
Proof.
  intros d cat drop src dest a Q Us Ud H. rewrite (alters_origin _ _ _ _ _ Q Us Ud) in H. apply in_flat_map in H.
  destruct H as ((s & t) & P & H). exists s, t. split; [exact P|]. unfold recorded in H. destruct (_ && _) in H; [contradiction|].
  destruct H as [H|[]]. auto.
Qed.
Lemma keep_in : forall {A} b (l : list A) x, In x (keep b l) -> In x l.
Proof. intros A [|] l x H; [exact H|contradiction]. Qed.
Lemma key_not_fkey : forall c, is_key c = true -> is_fkey c = false.
Proof.
  intros c H. unfold is_key in H. unfold is_fkey. destruct (beqb_spec (con_type c) FOREIGN_KEY) as [E|]; [|reflexivity].
  rewrite E in H. discriminate.
Qed.
Lemma old_counterparts : forall src dest s t, In (s, t) (old_tables src dest) -> counterparts src dest s t.
Proof. intros src dest s t H. apply old_tables_in in H. destruct H as (ss & ds & ? & ? & ? & ? & ? & ? & _). exists ss, ds. auto 8. Qed.
Lemma the_alter_drops : forall d cat drop src dest s t c, sql_dialect d = true -> same_kinds src dest -> In (s, t) (old_tables src dest) ->
  In c (al_drop_constraints (the_alter d cat drop s t)) -> is_fkey c = false.
Proof.
  intros d cat drop src dest s t c Q SK P H. destruct d; try discriminate Q; cbn [the_alter the_alter_mysql the_alter_postgres the_alter_sqlserver al_drop_constraints] in H.
  - apply in_app_or in H. destruct H as [H|H]; [apply filter_In in H; apply key_not_fkey; tauto|].
    unfold old_pkey in H. destruct (_ && _) in H; [|contradiction].
    match type of H with In _ (opt_list ?o) => destruct o as [k|] eqn:K end; [|contradiction].
    destruct H as [<-|[]]. apply pick_some in K. destruct K as (_ & K & _). apply key_not_fkey, pkey_is_key, is_pkey_type. exact K.
  - apply in_app_or in H. destruct H as [H|H]; [apply filter_In in H; apply key_not_fkey; tauto|].
    apply in_map_iff in H. destruct H as ((a & b) & <- & H). apply filter_In in H. destruct H as (H & R). unfold rekeyed in R.
    apply andb_true_iff in R. destruct R as (R & _). apply both_in in H. destruct H as (Hb & Ib & F).
    apply find_con_in in F. destruct F as (Ha & E & _). cbn [fst].
    apply key_not_fkey, pkey_is_key, is_pkey_type. rewrite (SK s t a b (old_counterparts _ _ _ _ P) Ha Hb E). apply is_pkey_type. exact R.
  - apply in_app_or in H. destruct H as [H|H]; [apply filter_In in H; apply key_not_fkey; tauto|].
    apply in_app_or in H. destruct H as [H|H]; [|apply filter_In in H; apply key_not_fkey; tauto].
    apply in_map_iff in H. destruct H as ((i & k) & <- & H). unfold replaced in H.
    destruct (live_pos con_ignore (tb_constraints s) _) as [i'|] eqn:L1; [|contradiction].
    destruct (live_pos con_ignore (tb_constraints t) _) as [j|] eqn:L2; [|contradiction].
    apply last_named_nth in L1. destruct L1 as (a1 & N1 & H1 & T1 & I1).
    apply last_named_nth in L2. destruct L2 as (b1 & N2 & H2 & T2 & I2). rewrite N1, N2 in H.
    destruct (_ && _) in H; [|contradiction]. destruct H as [H|[]]. injection H as -> ->. cbn [snd].
    apply key_not_fkey, pkey_is_key, is_pkey_type. exact T1.
Qed.
Lemma the_alter_adds : forall d cat drop s t c, sql_dialect d = true ->
  In c (al_add_constraints (the_alter d cat drop s t)) -> is_fkey c = false.
Proof.
  intros d cat drop s t c Q H. destruct d; try discriminate Q; cbn [the_alter the_alter_mysql the_alter_postgres the_alter_sqlserver al_add_constraints] in H.
  - apply filter_In in H; apply key_not_fkey; tauto.
  - unfold added_mysql in H. apply in_flat_map in H. destruct H as (b & Hb & H). destruct (con_ignore b); [contradiction|].
    destruct (find_con s (con_name b)) as [a|].
    + destruct (rekeyed a b) eqn:R; [|contradiction]. destruct H as [<-|[]]. unfold rekeyed in R. apply andb_true_iff in R.
      apply key_not_fkey, pkey_is_key. tauto.
    + destruct (is_key b) eqn:K; [|contradiction]. destruct H as [<-|[]]. apply key_not_fkey. exact K.
  - apply in_app_or in H. destruct H as [H|H]; apply filter_In in H; apply key_not_fkey; tauto.
Qed.

(** The statements of one altered table are not about foreign keys. *)
Lemma alter_code_keys : forall d flt cat drop src dest s t l x, sql_dialect d = true -> same_kinds src dest -> In (s, t) (old_tables src dest) ->
  alter_code d flt cat (the_alter d cat drop s t) = Ok l -> In x l ->
  drops_key x = false /\ adds_key x = false /\ drops_table x = false /\ creates_table x = false.
Proof.
  intros d flt cat drop src dest s t l x Q SK P H Hx.
  destruct (alter_code_ok _ _ _ _ _ Q H) as (mid & -> & M). apply in_app_or in Hx. destruct Hx as [Hx|Hx].
  { unfold alter_first in Hx. apply in_app_or in Hx. destruct Hx as [Hx|Hx].
    2: { apply in_map_iff in Hx. destruct Hx as (? & <- & _). auto. }
    assert (Y : In x (map (fun y => QDropIndex (dropped_at d cat (the_alter d cat drop s t) y) (ix_name y)) (al_drop_indexes (the_alter d cat drop s t)))
              \/ In x (map (QDropConstraint (alter_at cat (the_alter d cat drop s t))) (al_drop_constraints (the_alter d cat drop s t)))).
    { destruct d; apply in_app_or in Hx; tauto. }
    destruct Y as [Y|Y]; apply in_map_iff in Y; destruct Y as (c & <- & Hc); [auto|].
    apply (the_alter_drops _ _ _ _ _ _ _ _ Q SK P) in Hc. unfold is_fkey in Hc. cbn [drops_key adds_key drops_table creates_table]. rewrite Hc. auto. }
  apply in_app_or in Hx. destruct Hx as [Hx|Hx]; [apply in_map_iff in Hx; destruct Hx as (? & <- & _); auto|].
  apply in_app_or in Hx. destruct Hx as [Hx|Hx].
  { destruct (M x Hx) as [Z|[(? & ? & ->)|[(? & ? & ->)|[(? & ? & ->)|(? & ? & ->)]]]]; auto. destruct x; try discriminate Z; auto. }
  apply in_app_or in Hx. destruct Hx as [Hx|Hx]; [apply in_map_iff in Hx; destruct Hx as (? & <- & _); auto|].
  apply in_flat_map in Hx. destruct Hx as (c & Hc & Hx). apply (the_alter_adds _ _ _ _ _ _ Q) in Hc. unfold is_fkey in Hc.
  destruct d; cbn in Hx; repeat (destruct Hx as [<-|Hx]; [cbn [drops_key adds_key drops_table creates_table]; rewrite ?Hc; auto|]); contradiction.
Qed.
Lemma alts_keys : forall d flt src dest drop p alts x, sql_dialect d = true ->
  unique_tables (ct_schemas src) -> unique_tables (ct_schemas dest) -> same_kinds (ct_schemas src) (ct_schemas dest) ->
  record_all d empty_plan (all_changes (pure_alter d src drop) drop (ct_schemas src) (ct_schemas dest)) = Ok p ->
  flatr (alter_code d flt src) (pl_alters p) = Ok alts -> In x alts ->
  drops_key x = false /\ adds_key x = false /\ drops_table x = false /\ creates_table x = false.
Proof.
  intros d flt src dest drop p alts x Q Us Ud SK R A Hx. apply (flatr_inv _ _ _ A) in Hx. destruct Hx as (a & l & Ha & F & Hx).
  destruct (record_lists _ _ _ _ R) as (_ & _ & _ & _ & L5 & _). cbn - [all_changes] in L5. rewrite L5 in Ha.
  destruct (alter_is_the _ _ _ _ _ _ Q Us Ud Ha) as (s & t & P & ->). eapply alter_code_keys; eassumption.
Qed.

Lemma app_elt : forall {A} (a b pre : list A) x post, a ++ b = pre ++ x :: post ->
  (exists m, a = pre ++ x :: m) \/ exists m, pre = a ++ m /\ b = m ++ x :: post.
Proof.
  intros A a. induction a as [|y a IH]; intros b pre x post E.
  - right. exists pre. auto.
  - destruct pre as [|z pre].
    + injection E as <- _. left. exists a. reflexivity.
    + injection E as -> E. destruct (IH _ _ _ _ E) as [(m & ->)|(m & -> & ->)]; [left; exists m; reflexivity|]. right. exists m. auto.
Qed.
Lemma precedes_app : forall P Q a b, (forall x, In x b -> P x = false) -> (forall x, In x a -> Q x = false) -> precedes P Q (a ++ b).
Proof.
  intros P Q a b HP HQ pre x post y E Px Hy. destruct (app_elt _ _ _ _ _ E) as [(m & ->)|(m & -> & ->)].
  - apply HQ. apply in_or_app. left. exact Hy.
  - rewrite (HP x) in Px; [discriminate|]. apply in_elt.
Qed.

Theorem keys_in_order : forall d flt prefix src dest drop files ws, d <> Other ->
  unique_tables (ct_schemas src) -> unique_tables (ct_schemas dest) ->
  readable_types d (ct_schemas src) -> readable_types d (ct_schemas dest) -> same_kinds (ct_schemas src) (ct_schemas dest) ->
  results d flt prefix src dest drop = Ok (files, ws) ->
  precedes drops_key drops_table (forward files) /\ precedes creates_table adds_key (forward files).
Proof.
  intros d flt prefix src dest drop files ws ND Us Ud Rs Rd SK H. destruct (sql_dialect d) eqn:Q.
  - destruct (segments _ _ _ _ _ _ _ _ Q H) as (l & p & alts & C & R & A & G). rewrite G. clear G H.
    rewrite (pure_changes d src dest drop Q Us Ud Rs Rd) in C. injection C as <-.
    pose proof (alts_keys d flt src dest drop p alts) as AK. specialize (fun x => AK x Q Us Ud SK R A).
    assert (SS : forall x, In x (schema_stmts d (ct_current src) p) -> drops_key x = false /\ adds_key x = false).
    { intros x Hx. apply schema_stmts_in in Hx. destruct Hx as [(? & ->)|[(? & ->)|(? & -> & _)]]; auto. }
    assert (TS : forall x, In x (table_stmts (ct_current src) p) -> drops_key x = false /\ adds_key x = false).
    { intros x Hx. apply table_stmts_in in Hx. destruct Hx as [(? & ->)|[(? & _ & ->)|(? & ? & ? & ->)]]; auto. }
    split.
    + apply precedes_app.
      * intros x Hx. apply in_app_or in Hx. destruct Hx as [Hx|Hx]; [apply SS; exact Hx|].
        apply in_app_or in Hx. destruct Hx as [Hx|Hx]; [apply TS; exact Hx|].
        apply in_app_or in Hx. destruct Hx as [Hx|Hx]; [apply AK; exact Hx|].
        apply adds_part_in in Hx. destruct Hx as [(? & ? & ? & ->)|(? & ? & ->)]; reflexivity.
      * intros x Hx. apply drops_part_in in Hx. destruct Hx as (? & ? & -> & _). reflexivity.
    + rewrite !app_assoc. apply precedes_app.
      * intros x Hx. apply adds_part_in in Hx. destruct Hx as [(? & ? & ? & ->)|(? & ? & ->)]; reflexivity.
      * intros x Hx. apply in_app_or in Hx. destruct Hx as [Hx|Hx]; [|apply AK; exact Hx].
        apply in_app_or in Hx. destruct Hx as [Hx|Hx]; [|apply TS; exact Hx].
        apply in_app_or in Hx. destruct Hx as [Hx|Hx]; [|apply SS; exact Hx].
        apply drops_part_in in Hx. destruct Hx as (? & ? & -> & _). reflexivity.
  - destruct d; try discriminate Q; [|contradiction].
    apply results_sqlite in H. destruct H as (p & P & S & _). destruct (sqlite_stmts_all _ _ S) as (before & after & -> & BA).
    assert (N : forall x, In x (before ++ map (fun t => QDropTable (bare (tb_name t))) (sp_drop_tables p)
       ++ flat_map (fun t => QCreateTable (bare (tb_name t)) t :: map (fun x => QCreateIndex (bare (ix_table x)) x false) (tb_indexes t)) (sp_create_tables p)
       ++ flat_map (fun a => alter_stmts_sqlite a (copyb a)) (sp_alters p) ++ after) -> drops_key x = false /\ adds_key x = false).
    { intros x Hx. apply in_app_or in Hx. destruct Hx as [Hx|Hx]; [destruct (BA x (or_introl Hx)) as (? & ->); auto|].
      apply in_app_or in Hx. destruct Hx as [Hx|Hx]; [apply in_map_iff in Hx; destruct Hx as (? & <- & _); auto|].
      apply in_app_or in Hx. destruct Hx as [Hx|Hx].
      { apply in_flat_map in Hx. destruct Hx as (? & _ & [<-|Hx]); [auto|]. apply in_map_iff in Hx. destruct Hx as (? & <- & _). auto. }
      apply in_app_or in Hx. destruct Hx as [Hx|Hx]; [|destruct (BA x (or_intror Hx)) as (? & ->); auto].
      apply in_flat_map in Hx. destruct Hx as (a & _ & Hx). unfold alter_stmts_sqlite in Hx. destruct (copyb a).
      - unfold copy_stmts in Hx. cbn [app In] in Hx. do 4 (destruct Hx as [<-|Hx]; [auto|]). apply in_map_iff in Hx. destruct Hx as (? & <- & _). auto.
      - repeat (apply in_app_or in Hx; destruct Hx as [Hx|Hx]); apply in_map_iff in Hx; destruct Hx as (? & <- & _); auto. }
    split.
    + intros pre x post y E Px Hy. exfalso. rewrite E in N. destruct (N x); [apply in_elt|]. congruence.
    + intros pre x post y E Px Hy. rewrite E in N. apply N. apply in_or_app. left. exact Hy.
Qed.

(** ** The tables of the keys *)
Definition groups_same (g : groups) : Prop :=
  (forall l a b, In l (gr_list g) -> In a l -> In b l -> tables_id a = tables_id b)
  /\ (forall k n, gr_pos g k = Some n -> exists c r, nth_error (gr_list g) n = Some (c :: r) /\ tables_id c = k).
Lemma set_nth_in : forall {A} (l : list A) n x y, In y (set_nth n x l) -> y = x \/ In y l.
Proof.
  intros A l. induction l as [|a l IH]; intros n x y H; [destruct n; contradiction|].
  destruct n; cbn in H; destruct H as [H|H]; cbn; auto. destruct (IH _ _ _ H); auto.
Qed.
Lemma nth_error_set_nth : forall {A} (l : list A) n m x, n < List.length l ->
  nth_error (set_nth n x l) m = if m =? n then Some x else nth_error l m.
Proof.
  intros A l. induction l as [|a l IH]; intros n m x H; [cbn in H; lia|].
  destruct n, m; cbn; try reflexivity. apply IH. cbn in H. lia.
Qed.
Lemma nth_error_length : forall {A} (l : list A) n x, nth_error l n = Some x -> n < List.length l.
Proof. intros A l n x H. apply nth_error_Some. congruence. Qed.
Lemma add_key_same : forall g c, groups_same g -> groups_same (add_key g c).
Proof.
  intros g c (S1 & S2). unfold add_key. destruct (gr_pos g (tables_id c)) as [n|] eqn:P.
  - destruct (S2 _ _ P) as (c0 & r & N & T). pose proof (nth_error_length _ _ _ N) as L.
    unfold groups_same, append_to. cbn [gr_list gr_pos]. rewrite (nth_error_nth _ _ [] N).
    assert (G : forall x, In x ((c0 :: r) ++ [c]) -> tables_id x = tables_id c).
    { intros x Hx. apply in_app_or in Hx. destruct Hx as [Hx|[<-|[]]]; [|reflexivity]. rewrite <- T.
      apply (S1 (c0 :: r)); [eapply nth_error_In; exact N|exact Hx|left; reflexivity]. }
    split.
    + intros l a b Hl Ha Hb. apply set_nth_in in Hl. destruct Hl as [->|Hl]; [rewrite (G a Ha), (G b Hb); reflexivity|]. eapply S1; eassumption.
    + intros k m Pk. rewrite nth_error_set_nth by exact L. destruct (S2 _ _ Pk) as (c1 & r1 & N1 & T1).
      destruct (Nat.eqb_spec m n) as [->|].
      * exists c0, (r ++ [c]). split; [reflexivity|]. rewrite N1 in N. injection N as -> _. exact T1.
      * eauto.
  - split; cbn [gr_list gr_pos].
    + intros l a b Hl Ha Hb. apply in_app_or in Hl. destruct Hl as [Hl|[<-|[]]]; [eapply S1; eassumption|].
      destruct Ha as [<-|[]]. destruct Hb as [<-|[]]. reflexivity.
    + intros k m Pk. unfold upd in Pk. destruct (keqb (tables_id c) k) eqn:K.
      * injection Pk as <-. exists c, []. rewrite nth_last. split; [reflexivity|]. apply cache_key_eq. exact K.
      * destruct (S2 _ _ Pk) as (c1 & r1 & N1 & T1). exists c1, r1. split; [|exact T1].
        rewrite nth_error_app1; [exact N1|]. eapply nth_error_length. exact N1.
Qed.
Lemma no_groups_same : groups_same no_groups.
Proof. split; [intros l a b []|intros k n H; discriminate H]. Qed.
Lemma record_same : forall l p p', (forall k, ~ In (ChRecreateFkey k) l) ->
  groups_same (pl_drop_fkeys p) /\ groups_same (pl_fast_fkeys p) /\ groups_same (pl_add_fkeys p) ->
  record_all Postgres p l = Ok p' ->
  groups_same (pl_drop_fkeys p') /\ groups_same (pl_fast_fkeys p') /\ groups_same (pl_add_fkeys p').
Proof.
  induction l as [|c l IH]; intros p p' N G H; cbn [record_all] in H; [injection H as <-; exact G|].
  apply bindr_inv in H. destruct H as (q & Q & H). apply (IH q p'); [intros k Hk; apply (N k); right; exact Hk| |exact H].
  destruct G as (G1 & G2 & G3). destruct p as [dk dss css dts cts als fk ak ws]. cbn [pl_drop_fkeys pl_fast_fkeys pl_add_fkeys] in *.
  unfold record_change in Q. destruct c; try (injection Q as <-; cbn [pl_drop_fkeys pl_fast_fkeys pl_add_fkeys]; auto using add_key_same; fail).
  exfalso. apply (N c). left. reflexivity.
Qed.

(** ** Where the keys come from *)
Definition key_of (l : list schema) (k : constraint) : Prop :=
  exists s t, In s l /\ In t (sc_tables s) /\ In k (tb_constraints t) /\ con_type k = FOREIGN_KEY.
Lemma live_fkeys_in : forall t k, In k (live_fkeys t) -> In k (tb_constraints t) /\ con_type k = FOREIGN_KEY.
Proof.
  intros t k H. unfold live_fkeys in H. apply filter_In in H. destruct H as (H & E). split; [exact H|].
  apply andb_true_iff in E. destruct E as (E1 & E2). apply beqb_eq. assumption.
Qed.
Lemma create_fast : forall t k, In k (flat_map ch_fast_key (create_changes t)) -> In k (live_fkeys t).
Proof.
  intros t k H. apply in_flat_map in H. destruct H as (c & [<-|Hc] & H); [contradiction|].
  apply in_map_iff in Hc. destruct Hc as (k' & <- & Hk). destruct H as [<-|[]]. exact Hk.
Qed.
Lemma create_others : forall t k, ~ In k (flat_map ch_drop_key (create_changes t)) /\ ~ In k (flat_map ch_add_key (create_changes t)).
Proof.
  intros t k. split; intro H; apply in_flat_map in H; destruct H as (c & [<-|Hc] & H); try contradiction;
    apply in_map_iff in Hc; destruct Hc as (k' & <- & Hk); contradiction.
Qed.
Lemma pure_alter_changes : forall d cat drop s t c, sql_dialect d = true -> In c (pure_alter d cat drop s t) ->
  (exists k, c = ChDropFkey k /\ In k (tb_constraints s) /\ con_type k = FOREIGN_KEY)
  \/ (exists k, c = ChAddFkey k /\ In k (tb_constraints t) /\ con_type k = FOREIGN_KEY)
  \/ (exists k, c = ChRecreateFkey k /\ d = SQLServer /\ In k (tb_constraints s) /\ con_type k = FOREIGN_KEY)
  \/ (exists a, c = ChAlterTable a) \/ exists x y z, c = ChWarn x y z.
Proof.
  intros d cat drop s t c Q H.
  assert (GD : In c (map ChDropFkey (filter is_fkey (keep drop (only_cons s t)))) -> exists k, c = ChDropFkey k /\ In k (tb_constraints s) /\ con_type k = FOREIGN_KEY).
  { intro Z. apply in_map_iff in Z. destruct Z as (k & <- & Z). apply filter_In in Z. destruct Z as (Z & F). apply is_fkey_type in F.
    apply keep_in in Z. apply gone_in in Z. exists k. tauto. }
  assert (GA : In c (map ChAddFkey (filter is_fkey (only_cons t s))) -> exists k, c = ChAddFkey k /\ In k (tb_constraints t) /\ con_type k = FOREIGN_KEY).
  { intro Z. apply in_map_iff in Z. destruct Z as (k & <- & Z). apply filter_In in Z. destruct Z as (Z & F). apply is_fkey_type in F.
    apply gone_in in Z. exists k. tauto. }
  destruct d; try discriminate Q; cbn [pure_alter] in H.
  - unfold postgres_changes in H. apply in_app_or in H. destruct H as [H|H]; [auto|]. apply in_app_or in H. destruct H as [H|H]; [auto|].
    apply recorded_in in H. eauto 6.
  - unfold mysql_changes in H. apply in_app_or in H. destruct H as [H|H]; [auto|]. apply in_app_or in H. destruct H as [H|H]; [auto|].
    apply recorded_in in H. eauto 6.
  - unfold sqlserver_changes in H. apply in_app_or in H. destruct H as [H|H].
    { apply in_map_iff in H. destruct H as (? & <- & _). eauto 9. }
    apply in_app_or in H. destruct H as [H|H]; [auto|]. apply in_app_or in H. destruct H as [H|H]; [auto|].
    apply in_app_or in H. destruct H as [H|H].
    + apply in_map_iff in H. destruct H as (k & <- & H). apply filter_In in H. destruct H as (H & F). apply is_fkey_type in F.
      apply dep_cons_in in H. right. right. left. exists k. auto.
    + apply recorded_in in H. eauto 6.
Qed.

Lemma all_changes_in : forall d cat drop src dest c, sql_dialect d = true -> In c (all_changes (pure_alter d cat drop) drop src dest) ->
  (exists k, c = ChDropFkey k /\ key_of src k)
  \/ (exists k, c = ChAddFkey k /\ key_of dest k)
  \/ (exists k, c = ChFastFkey k /\ key_of dest k)
  \/ (exists k, c = ChRecreateFkey k /\ d = SQLServer /\ key_of src k)
  \/ (exists a, c = ChAlterTable a) \/ (exists x y z, c = ChWarn x y z)
  \/ (exists s, c = ChDropSchema s) \/ (exists s, c = ChCreateSchema s) \/ (exists t, c = ChDropTable t) \/ exists t, c = ChCreateTable t.
Proof.
  intros d cat drop src dest c Q H. unfold all_changes in H. apply in_app_or in H. destruct H as [H|H].
  - apply keep_in in H. apply in_flat_map in H. destruct H as (s & Hs & H). apply live_schemas_in in Hs. destruct Hs as (Hs & _).
    unfold drop_schema_changes in H. destruct (find_schema dest (sc_name s)); [contradiction|].
    apply in_app_or in H. destruct H as [H|H].
    { destruct (is_empty (sc_name s)); [contradiction|]. destruct H as [<-|[]]. eauto 12. }
    apply in_flat_map in H. destruct H as (t & Ht & H). apply live_in in Ht. destruct Ht as (Ht & _).
    apply in_map_iff in H. destruct H as (k & <- & H). apply live_fkeys_in in H. left. exists k. split; [reflexivity|]. exists s, t. tauto.
  - apply in_flat_map in H. destruct H as (ds & Hds & H). apply live_schemas_in in Hds. destruct Hds as (Hds & _).
    assert (CC : forall t, In t (sc_tables ds) -> In c (create_changes t) -> (exists k, c = ChFastFkey k /\ key_of dest k) \/ exists t, c = ChCreateTable t).
    { intros t Ht [<-|Z]; [eauto|]. apply in_map_iff in Z. destruct Z as (k & <- & Z). apply live_fkeys_in in Z. left. exists k.
      split; [reflexivity|]. exists ds, t. tauto. }
    unfold schema_changes in H. destruct (find_schema src (sc_name ds)) as [ss|] eqn:S.
    + apply find_schema_in in S. destruct S as (Hss & _). apply in_app_or in H. destruct H as [H|H].
      * apply keep_in in H. apply in_flat_map in H. destruct H as (t & Ht & H). apply live_in in Ht. destruct Ht as (Ht & _).
        unfold drop_table_changes in H. destruct (find_table ds (tb_name t)); [contradiction|]. destruct H as [<-|H]; [eauto 12|].
        apply in_map_iff in H. destruct H as (k & <- & H). apply live_fkeys_in in H. left. exists k. split; [reflexivity|]. exists ss, t. tauto.
      * apply in_flat_map in H. destruct H as (t & Ht & H). apply live_in in Ht. destruct Ht as (Ht & _).
        unfold table_changes in H. destruct (find_table ss (tb_name t)) as [s|] eqn:T.
        -- apply find_table_in in T. destruct T as (Hs & _).
           destruct (pure_alter_changes _ _ _ _ _ _ Q H) as [(k & -> & K1 & K2)|[(k & -> & K1 & K2)|[(k & -> & K0 & K1 & K2)|[(a & ->)|(x & y & z & ->)]]]].
           ++ left. exists k. split; [reflexivity|]. exists ss, s. auto.
           ++ right. left. exists k. split; [reflexivity|]. exists ds, t. auto.
           ++ right. right. right. left. exists k. split; [reflexivity|]. split; [exact K0|]. exists ss, s. auto.
           ++ eauto 8.
           ++ eauto 12.
        -- destruct (CC t Ht H) as [Z|Z]; eauto 12.
    + apply in_app_or in H. destruct H as [H|H].
      * destruct (is_empty (sc_name ds)); [contradiction|]. destruct H as [<-|[]]. eauto 12.
      * apply in_flat_map in H. destruct H as (t & Ht & H). apply live_in in Ht. destruct Ht as (Ht & _).
        destruct (CC t Ht H) as [Z|Z]; eauto 12.
Qed.

Lemma keys_in_group : forall g l k, In l (gr_list g) -> In k l -> In k (keys g).
Proof. intros g l k H1 H2. unfold keys. apply in_concat. eauto. Qed.
Theorem keys_at_own_table : forall d flt prefix src dest drop files ws, d <> Other ->
  unique_tables (ct_schemas src) -> unique_tables (ct_schemas dest) ->
  readable_types d (ct_schemas src) -> readable_types d (ct_schemas dest) -> same_kinds (ct_schemas src) (ct_schemas dest) ->
  (d = Postgres -> one_owner (ct_schemas src) /\ one_owner (ct_schemas dest)) ->
  results d flt prefix src dest drop = Ok (files, ws) ->
  forall x, In x (forward files) -> at_own_table (ct_current src) x.
Proof.
  intros d flt prefix src dest drop files ws ND Us Ud Rs Rd SK OW H x Hx. destruct (sql_dialect d) eqn:Q.
  - destruct (segments _ _ _ _ _ _ _ _ Q H) as (l & p & alts & C & R & A & G). rewrite G in Hx. clear G H.
    rewrite (pure_changes d src dest drop Q Us Ud Rs Rd) in C. injection C as <-.
    destruct (record_keys _ _ _ _ empty_plan_ok R) as (PO & K1 & K2 & K3). cbn - [all_changes] in K1, K2, K3.
    assert (PG : d = Postgres -> groups_same (pl_drop_fkeys p) /\ groups_same (pl_fast_fkeys p) /\ groups_same (pl_add_fkeys p)
               /\ flat_map ch_recreate_key (all_changes (pure_alter d src drop) drop (ct_schemas src) (ct_schemas dest)) = []).
    { intros ->. assert (NR : forall k, ~ In (ChRecreateFkey k) (all_changes (pure_alter Postgres src drop) drop (ct_schemas src) (ct_schemas dest))).
      { intros k Hk. destruct (all_changes_in _ _ _ _ _ _ Q Hk)
          as [(k' & Z & _)|[(k' & Z & _)|[(k' & Z & _)|[(k' & _ & Z & _)|[(k' & Z)|[(? & ? & ? & Z)|[(k' & Z)|[(k' & Z)|[(k' & Z)|(k' & Z)]]]]]]]]]; discriminate. }
      assert (E0 : groups_same (pl_drop_fkeys empty_plan) /\ groups_same (pl_fast_fkeys empty_plan) /\ groups_same (pl_add_fkeys empty_plan))
        by (split; [|split]; exact no_groups_same).
      destruct (record_same _ _ _ NR E0 R) as (S1 & S2 & S3).
      split; [exact S1|]. split; [exact S2|]. split; [exact S3|]. apply flat_map_in_nil. intros c Hc. destruct c; try reflexivity. destruct (NR _ Hc). }
    (* a group of Postgres *)
    assert (GR : forall cat g l k, d = Postgres -> one_owner cat -> groups_same g -> (forall k, In k (keys g) -> key_of cat k) ->
              In l (gr_list g) -> In k l -> group_at (ct_current src) l = at_owner (ct_current src) k).
    { intros cat g l k _ O S KO Hl Hk. destruct l as [|k0 l]; [contradiction|]. unfold group_at, at_owner. cbn [first_key hd].
      destruct (KO k0) as (s1 & t1 & A1 & A2 & A3 & A4); [eapply keys_in_group; [exact Hl|left; reflexivity]|].
      destruct (KO k) as (s2 & t2 & B1 & B2 & B3 & B4); [eapply keys_in_group; [exact Hl|exact Hk]|].
      assert (SP : same_pair k0 k) by (apply tables_id_pair; apply (proj1 S (k0 :: l)); [exact Hl|left; reflexivity|exact Hk]).
      destruct (O s1 t1 k0 s2 t2 k A1 A2 A3 B1 B2 B3 A4 B4 SP) as (-> & ->). reflexivity. }
    assert (KD : forall k, In k (keys (pl_drop_fkeys p)) -> key_of (ct_schemas src) k).
    { intros k Hk. apply (Permutation_in _ K1) in Hk. apply in_flat_map in Hk. destruct Hk as (c & Hc & Hk).
      destruct (all_changes_in _ _ _ _ _ _ Q Hc)
          as [(k' & -> & Z)|[(k' & -> & _)|[(k' & -> & _)|[(k' & -> & _ & Z)|[(k' & ->)|[(? & ? & ? & ->)|[(k' & ->)|[(k' & ->)|[(k' & ->)|(k' & ->)]]]]]]]]];
        try contradiction Hk; destruct Hk as [<-|[]]; exact Z. }
    apply in_app_or in Hx. destruct Hx as [Hx|Hx].
    { unfold drops_part in Hx. apply in_flat_map in Hx. destruct Hx as (l & Hl & Hx).
      destruct d; try discriminate Q; cbn [drop_key_stmts] in Hx; apply in_map_iff in Hx; destruct Hx as (k & <- & Hk); cbn [at_own_table]; intros _.
      2,3: reflexivity.
      destruct (PG eq_refl) as (S1 & S2 & S3 & NR). destruct (OW eq_refl) as (O1 & O2). exact (GR (ct_schemas src) (pl_drop_fkeys p) l k eq_refl O1 S1 KD Hl Hk). }
    apply in_app_or in Hx. destruct Hx as [Hx|Hx].
    { apply schema_stmts_in in Hx. destruct Hx as [(? & ->)|[(? & ->)|(? & -> & _)]]; exact I. }
    apply in_app_or in Hx. destruct Hx as [Hx|Hx].
    { apply table_stmts_in in Hx. destruct Hx as [(? & ->)|[(? & _ & ->)|(? & ? & ? & ->)]]; exact I. }
    apply in_app_or in Hx. destruct Hx as [Hx|Hx].
    { destruct (alts_keys d flt src dest drop p alts x Q Us Ud SK R A Hx) as (D1 & D2 & _).
      destruct x; try exact I; cbn [at_own_table drops_key adds_key] in *; intro T; rewrite T in *; discriminate. }
    unfold adds_part in Hx. apply in_app_or in Hx. destruct Hx as [Hx|Hx]; apply in_flat_map in Hx; destruct Hx as (l & Hl & Hx).
    + destruct d; try discriminate Q; cbn [fast_key_stmts] in Hx; try contradiction; apply in_map_iff in Hx; destruct Hx as (k & <- & Hk); cbn [at_own_table]; intros _.
      2: reflexivity.
      destruct (PG eq_refl) as (S1 & S2 & S3 & NR). destruct (OW eq_refl) as (O1 & O2). apply (GR (ct_schemas dest) (pl_fast_fkeys p) l k eq_refl O2 S2); try assumption.
      intros k' Hk'. apply (Permutation_in _ K2) in Hk'. apply in_flat_map in Hk'. destruct Hk' as (c & Hc & Hk').
      destruct (all_changes_in _ _ _ _ _ _ Q Hc)
          as [(? & -> & Z)|[(? & -> & _)|[(? & -> & Z)|[(? & -> & Z & _)|[(? & ->)|[(? & ? & ? & ->)|[(? & ->)|[(? & ->)|[(? & ->)|(? & ->)]]]]]]]]];
        try contradiction Hk'; destruct Hk' as [<-|[]]; exact Z.
    + destruct d; try discriminate Q; cbn [add_key_stmts] in Hx.
      2,3: apply in_map_iff in Hx; destruct Hx as (k & <- & Hk); cbn [at_own_table]; intros _; reflexivity.
      apply in_app_or in Hx. destruct Hx as [Hx|Hx]; apply in_map_iff in Hx; destruct Hx as (k & <- & Hk); [|exact I]. cbn [at_own_table]; intros _.
      destruct (PG eq_refl) as (S1 & S2 & S3 & NR). destruct (OW eq_refl) as (O1 & O2). apply (GR (ct_schemas dest) (pl_add_fkeys p) l k eq_refl O2 S3); try assumption.
      intros k' Hk'. apply (Permutation_in _ (K3 NR)) in Hk'. apply in_flat_map in Hk'. destruct Hk' as (c & Hc & Hk').
      destruct (all_changes_in _ _ _ _ _ _ Q Hc)
          as [(? & -> & _)|[(? & -> & Z)|[(? & -> & Z)|[(? & -> & Z & _)|[(? & ->)|[(? & ? & ? & ->)|[(? & ->)|[(? & ->)|[(? & ->)|(? & ->)]]]]]]]]];
        try contradiction Hk'; destruct Hk' as [<-|[]]; exact Z.
  - destruct d; try discriminate Q; [|contradiction].
    apply results_sqlite in H. destruct H as (p & P & S & _). destruct (sqlite_stmts_all _ _ S) as (before & after & E & BA). rewrite E in Hx. clear E.
    apply in_app_or in Hx. destruct Hx as [Hx|Hx]; [destruct (BA x (or_introl Hx)) as (? & ->); exact I|].
    apply in_app_or in Hx. destruct Hx as [Hx|Hx]; [apply in_map_iff in Hx; destruct Hx as (? & <- & _); exact I|].
    apply in_app_or in Hx. destruct Hx as [Hx|Hx].
    { apply in_flat_map in Hx. destruct Hx as (? & _ & [<-|Hx]); [exact I|]. apply in_map_iff in Hx. destruct Hx as (? & <- & _). exact I. }
    apply in_app_or in Hx. destruct Hx as [Hx|Hx]; [|destruct (BA x (or_intror Hx)) as (? & ->); exact I].
    apply in_flat_map in Hx. destruct Hx as (a & _ & Hx). unfold alter_stmts_sqlite in Hx. destruct (copyb a).
    + unfold copy_stmts in Hx. cbn [app In] in Hx. do 4 (destruct Hx as [<-|Hx]; [exact I|]). apply in_map_iff in Hx. destruct Hx as (? & <- & _). exact I.
    + repeat (apply in_app_or in Hx; destruct Hx as [Hx|Hx]); apply in_map_iff in Hx; destruct Hx as (? & <- & _); exact I.
Qed.

(** ** Every missing key is added *)
Lemma live_fkeys_spec : forall t, live_fkeys t = foreign_keys t.
Proof. intro t. unfold live_fkeys, foreign_keys. apply filter_ext. intro c. apply andb_comm || reflexivity. Qed.
Lemma fast_keys : forall d cat drop src dest, sql_dialect d = true -> unique_tables src -> unique_tables dest ->
  flat_map ch_fast_key (all_changes (pure_alter d cat drop) drop src dest) = flat_map foreign_keys (new_tables src dest).
Proof.
  intros d cat drop src dest Q Us Ud. rewrite changes_created.
  2: { intros c [(s & ->)|[(t & ->)|(k & ->)]]; reflexivity. }
  assert (CC : forall t, flat_map ch_fast_key (create_changes t) = foreign_keys t).
  { intro t. unfold create_changes. cbn. rewrite flat_map_map. etransitivity; [exact (flat_map_one (fun k => k) (live_fkeys t))|]. rewrite map_id. apply live_fkeys_spec. }
  assert (CA : forall s t, flat_map ch_fast_key (pure_alter d cat drop s t) = []).
  { intros s t. apply flat_map_in_nil. intros c Hc.
    destruct (pure_alter_changes _ _ _ _ _ _ Q Hc) as [(k & -> & _)|[(k & -> & _)|[(k & -> & _)|[(a & ->)|(x & y & z & ->)]]]]; reflexivity. }
  unfold new_tables. rewrite flat_map_flat_map.
  transitivity (flat_map (fun ds => if sc_ignore ds then [] else flat_map foreign_keys (filter (fun t => negb (tb_ignore t) &&
              match the sc_name sc_ignore src (sc_name ds) with
              | None => true
              | Some ss => lacks tb_name tb_ignore (sc_tables ss) (tb_name t)
              end) (sc_tables ds))) dest).
  2: { apply flat_map_ext. intro ds. destruct (sc_ignore ds); reflexivity. }
  rewrite flat_map_live. fold (live_schemas dest). apply flat_map_in_ext. intros ds Hds.
  rewrite <- (pick_the sc_name sc_ignore src _ (proj1 Us)). fold (find_schema src).
  destruct (find_schema src (sc_name ds)) as [ss|] eqn:S.
  - apply find_schema_in in S. destruct S as (Hss & _). destruct (proj2 Us ss Hss) as (U1 & _).
    unfold live_tables. rewrite <- flat_map_live. induction (sc_tables ds) as [|t l IH]; [reflexivity|].
    cbn [flat_map filter]. rewrite IH. destruct (tb_ignore t); [reflexivity|]. cbn [negb andb].
    unfold lacks. rewrite <- (pick_the tb_name tb_ignore (sc_tables ss) _ U1). fold (find_table ss).
    destruct (find_table ss (tb_name t)); [rewrite CA; reflexivity|]. rewrite CC. reflexivity.
  - replace (if is_empty (sc_name ds) then [] else ch_fast_key (ChCreateSchema (sc_name ds))) with (@nil constraint)
      by (destruct (is_empty (sc_name ds)); reflexivity).
    cbn [app]. unfold live_tables. rewrite (filter_in_ext (fun t => negb (tb_ignore t) && true) (fun t => negb (tb_ignore t))) by (intros; apply andb_true_r).
    apply flat_map_ext. exact CC.
Qed.
Lemma extra_keys_spec : forall a b, NoDup (map con_name (tb_constraints b)) ->
  (forall c, In c (tb_constraints a) -> con_type c = FOREIGN_KEY -> con_name c <> []) ->
  filter is_fkey (only_cons a b) = extra_keys a b.
Proof.
  intros a b N NK. unfold only_cons, extra_keys, gone, foreign_keys.
  induction (tb_constraints a) as [|c l IH]; [reflexivity|]. cbn [filter].
  assert (IH' := IH (fun c H => NK c (or_intror H))). destruct (con_ignore c); [exact IH'|]. cbn [negb andb].
  change (beqb (con_type c) FOREIGN_KEY) with (is_fkey c). destruct (is_fkey c) eqn:F.
  - apply is_fkey_type in F as F'. pose proof (NK c (or_introl eq_refl) F') as NE. cbn [filter]. unfold lacks.
    rewrite <- (pick_the con_name con_ignore (tb_constraints b) _ N). unfold find_con at 1, pick_con.
    apply some_name_spec in NE. rewrite NE. destruct (pick con_name con_ignore (tb_constraints b) (con_name c)); [exact IH'|].
    cbn [is_none filter]. rewrite F. f_equal. exact IH'.
  - destruct (find_con b (con_name c)); [exact IH'|]. cbn [is_none filter]. rewrite F. exact IH'.
Qed.
Lemma add_keys : forall d cat drop src dest, sql_dialect d = true -> unique_names src -> unique_names dest -> named_keys dest ->
  flat_map ch_add_key (all_changes (pure_alter d cat drop) drop src dest) = flat_map (fun '(s, t) => extra_keys t s) (old_tables src dest).
Proof.
  intros d cat drop src dest Q Us Ud NK. rewrite changes_created.
  2: { intros c [(s & ->)|[(t & ->)|(k & ->)]]; reflexivity. }
  assert (CC : forall t, flat_map ch_add_key (create_changes t) = []).
  { intro t. unfold create_changes. cbn. rewrite flat_map_map. apply flat_map_in_nil. reflexivity. }
  assert (CA : forall ss ds s t, In ss src -> In ds dest -> In s (sc_tables ss) -> In t (sc_tables ds) ->
     flat_map ch_add_key (pure_alter d cat drop s t) = extra_keys t s).
  { intros ss ds s t Hss Hds Hs Ht. destruct (proj2 Us ss s Hss Hs) as (_ & U & _).
    rewrite <- (extra_keys_spec t s U); [|intros c Hc T; apply (NK ds t c Hds Ht Hc); auto].
    assert (Z1 : forall l, flat_map ch_add_key (map ChDropFkey l) = []) by (intro l; rewrite flat_map_map; apply flat_map_nil).
    assert (Z2 : forall l, flat_map ch_add_key (map ChAddFkey l) = l) by (intro l; rewrite flat_map_map; etransitivity; [exact (flat_map_one (fun k => k) l)|apply map_id]).
    assert (Z3 : forall a, flat_map ch_add_key (recorded a) = []) by (intro a; unfold recorded; destruct (_ && _); reflexivity).
    destruct d; try discriminate Q; cbn [pure_alter].
    - unfold postgres_changes. rewrite !flat_map_app, Z1, Z2, Z3, app_nil_r. reflexivity.
    - unfold mysql_changes. rewrite !flat_map_app, Z1, Z2, Z3, app_nil_r. reflexivity.
    - unfold sqlserver_changes. rewrite !flat_map_app, Z1, Z2, Z3.
      rewrite (flat_map_in_nil _ (map ChRecreateFkey _)) by (intros x Hx; apply in_map_iff in Hx; destruct Hx as (? & <- & _); reflexivity).
      rewrite (flat_map_in_nil _ (map _ (warned s t))) by (intros x Hx; apply in_map_iff in Hx; destruct Hx as (? & <- & _); reflexivity).
      rewrite !app_nil_r. reflexivity. }
  unfold old_tables. rewrite flat_map_flat_map.
  transitivity (flat_map (fun ds => if sc_ignore ds then [] else flat_map (fun '(s, t) => extra_keys t s)
    match the sc_name sc_ignore src (sc_name ds) with
    | None => []
    | Some ss =>
        flat_map (fun t => if tb_ignore t then [] else
          match the tb_name tb_ignore (sc_tables ss) (tb_name t) with
          | None => []
          | Some s => [(s, t)]
          end) (sc_tables ds)
    end) dest).
  2: { apply flat_map_ext. intro ds. destruct (sc_ignore ds); reflexivity. }
  rewrite flat_map_live. fold (live_schemas dest). apply flat_map_in_ext. intros ds Hds. apply live_schemas_in in Hds. destruct Hds as (Hds & _).
  rewrite <- (pick_the sc_name sc_ignore src _ (proj1 (proj1 Us))). fold (find_schema src).
  destruct (find_schema src (sc_name ds)) as [ss|] eqn:S.
  - apply find_schema_in in S. destruct S as (Hss & _). destruct (proj2 (proj1 Us) ss Hss) as (U1 & _).
    rewrite flat_map_live. fold (live_tables ds). rewrite flat_map_flat_map. apply flat_map_in_ext. intros t Ht.
    apply live_in in Ht. destruct Ht as (Ht & _).
    rewrite <- (pick_the tb_name tb_ignore (sc_tables ss) _ U1). fold (find_table ss).
    destruct (find_table ss (tb_name t)) as [s|] eqn:T; [|rewrite CC; reflexivity]. apply find_table_in in T. destruct T as (Hs & _).
    cbn. rewrite app_nil_r. eapply CA; eassumption.
  - replace (if is_empty (sc_name ds) then [] else ch_add_key (ChCreateSchema (sc_name ds))) with (@nil constraint)
      by (destruct (is_empty (sc_name ds)); reflexivity).
    cbn [app flat_map]. apply flat_map_in_nil. auto.
Qed.

Lemma flat_map_split : forall {A C} (f g : A -> list C) l, Permutation (flat_map (fun a => f a ++ g a) l) (flat_map f l ++ flat_map g l).
Proof.
  intros A C f g l. induction l as [|a l IH]; [constructor|]. cbn. rewrite <- !app_assoc. apply Permutation_app_head.
  rewrite IH. rewrite !app_assoc. apply Permutation_app_tail. apply Permutation_app_comm.
Qed.
Lemma keys_added_map : forall (f : constraint -> qname) b l, (forall c, In c l -> con_type c = FOREIGN_KEY) ->
  keys_added (map (fun c => QAddConstraint (f c) c b) l) = l.
Proof.
  intros f b l H. induction l as [|c l IH]; [reflexivity|]. unfold keys_added in *. cbn [map flat_map].
  rewrite (H c (or_introl eq_refl)), beqb_refl. cbn [app]. f_equal. apply IH. intros; apply H; cbn; auto.
Qed.
Lemma keys_added_concat : forall (f : list constraint -> list stmt) ls,
  (forall l, In l ls -> keys_added (f l) = l) -> keys_added (flat_map f ls) = concat ls.
Proof.
  intros f ls H. induction ls as [|l ls IH]; [reflexivity|]. cbn [flat_map concat]. unfold keys_added in *. rewrite flat_map_app.
  rewrite (H l (or_introl eq_refl)). f_equal. apply IH. intros; apply H; cbn; auto.
Qed.
Theorem keys_are_added : forall d flt prefix src dest drop files ws, d = MySQL \/ d = Postgres ->
  unique_names (ct_schemas src) -> unique_names (ct_schemas dest) ->
  readable_types d (ct_schemas src) -> readable_types d (ct_schemas dest) -> named_keys (ct_schemas dest) ->
  same_kinds (ct_schemas src) (ct_schemas dest) ->
  results d flt prefix src dest drop = Ok (files, ws) ->
  Permutation (keys_added (forward files)) (new_keys (ct_schemas src) (ct_schemas dest)).
Proof.
  intros d flt prefix src dest drop files ws DD Us Ud Rs Rd NK SK H.
  assert (Q : sql_dialect d = true) by (destruct DD as [->| ->]; reflexivity).
  destruct (segments _ _ _ _ _ _ _ _ Q H) as (l & p & alts & C & R & A & G). rewrite G. clear G H.
  rewrite (pure_changes d src dest drop Q (proj1 Us) (proj1 Ud) Rs Rd) in C. injection C as <-.
  destruct (record_keys _ _ _ _ empty_plan_ok R) as (PO & K1 & K2 & K3). cbn - [all_changes] in K1, K2, K3.
  assert (NR : flat_map ch_recreate_key (all_changes (pure_alter d src drop) drop (ct_schemas src) (ct_schemas dest)) = []).
  { apply flat_map_in_nil. intros c Hc. destruct (all_changes_in _ _ _ _ _ _ Q Hc)
      as [(k' & -> & _)|[(k' & -> & _)|[(k' & -> & _)|[(k' & _ & -> & _)|[(k' & ->)|[(? & ? & ? & ->)|[(k' & ->)|[(k' & ->)|[(k' & ->)|(k' & ->)]]]]]]]]];
      try reflexivity. destruct DD; discriminate. }
  specialize (K3 NR).
  assert (KF : forall k, In k (keys (pl_fast_fkeys p)) -> con_type k = FOREIGN_KEY).
  { intros k' Hk'. apply (Permutation_in _ K2) in Hk'. apply in_flat_map in Hk'. destruct Hk' as (c & Hc & Hk').
    destruct (all_changes_in _ _ _ _ _ _ Q Hc)
          as [(? & -> & Z)|[(? & -> & Z)|[(? & -> & Z)|[(? & -> & Z & _)|[(? & ->)|[(? & ? & ? & ->)|[(? & ->)|[(? & ->)|[(? & ->)|(? & ->)]]]]]]]]];
      destruct DD; subst d; try contradiction Hk'; destruct Hk' as [<-|[]]; destruct Z as (? & ? & _ & _ & _ & Z); exact Z. }
  assert (KA : forall k, In k (keys (pl_add_fkeys p)) -> con_type k = FOREIGN_KEY).
  { intros k' Hk'. apply (Permutation_in _ K3) in Hk'. apply in_flat_map in Hk'. destruct Hk' as (c & Hc & Hk').
    destruct (all_changes_in _ _ _ _ _ _ Q Hc)
          as [(? & -> & Z)|[(? & -> & Z)|[(? & -> & Z)|[(? & -> & Z & _)|[(? & ->)|[(? & ? & ? & ->)|[(? & ->)|[(? & ->)|[(? & ->)|(? & ->)]]]]]]]]];
      destruct DD; subst d; try contradiction Hk'; destruct Hk' as [<-|[]]; destruct Z as (? & ? & _ & _ & _ & Z); exact Z. }
  assert (E : keys_added (drops_part d (ct_current src) p ++ schema_stmts d (ct_current src) p ++ table_stmts (ct_current src) p
         ++ alts ++ adds_part d (ct_current src) p) = keys_added (adds_part d (ct_current src) p)).
  { unfold keys_added. rewrite !flat_map_app.
    rewrite (flat_map_in_nil _ (drops_part _ _ _)) by (intros x Hx; apply drops_part_in in Hx; destruct Hx as (? & ? & -> & _); reflexivity).
    rewrite (flat_map_in_nil _ (schema_stmts _ _ _)) by (intros x Hx; apply schema_stmts_in in Hx; destruct Hx as [(? & ->)|[(? & ->)|(? & -> & _)]]; reflexivity).
    rewrite (flat_map_in_nil _ (table_stmts _ _)) by (intros x Hx; apply table_stmts_in in Hx; destruct Hx as [(? & ->)|[(? & _ & ->)|(? & ? & ? & ->)]]; reflexivity).
    rewrite (flat_map_in_nil _ alts).
    2: { intros x Hx. destruct (alts_keys d flt src dest drop p alts x Q (proj1 Us) (proj1 Ud) SK R A Hx) as (_ & D2 & _).
         destruct x; try reflexivity. cbn [adds_key] in D2. rewrite D2. reflexivity. }
    reflexivity. }
  rewrite E. clear E.
  assert (E : keys_added (adds_part d (ct_current src) p)
              = match d with MySQL => [] | _ => keys (pl_fast_fkeys p) end ++ keys (pl_add_fkeys p)).
  { unfold adds_part, keys_added. rewrite flat_map_app. f_equal.
    - destruct DD as [->| ->].
      + apply flat_map_in_nil. intros x Hx. apply in_flat_map in Hx. destruct Hx as (? & _ & []).
      + apply (keys_added_concat (fast_key_stmts Postgres (ct_current src))). intros l Hl. cbn [fast_key_stmts].
        apply (keys_added_map (fun _ => group_at (ct_current src) l) false). intros c Hc. apply KF. eapply keys_in_group; eassumption.
    - apply (keys_added_concat (add_key_stmts d (ct_current src))). intros l Hl.
      assert (F : forall c, In c l -> con_type c = FOREIGN_KEY) by (intros c Hc; apply KA; eapply keys_in_group; eassumption).
      destruct DD as [->| ->]; cbn [add_key_stmts].
      + apply (keys_added_map (at_owner (ct_current src)) false). exact F.
      + unfold keys_added. rewrite flat_map_app. transitivity (l ++ []); [|apply app_nil_r]. apply (f_equal2 (@app constraint)).
        * apply (keys_added_map (fun _ => group_at (ct_current src) l) true). exact F.
        * apply flat_map_in_nil. intros x Hx. apply in_map_iff in Hx. destruct Hx as (? & <- & _). reflexivity. }
  rewrite E. clear E. unfold new_keys. rewrite <- (fast_keys d src drop _ _ Q (proj1 Us) (proj1 Ud)), <- (add_keys d src drop _ _ Q Us Ud NK).
  destruct DD as [->| ->].
  - cbn [app]. rewrite K3. unfold add_of. apply flat_map_split.
  - apply Permutation_app; [exact K2|exact K3].
Qed.
