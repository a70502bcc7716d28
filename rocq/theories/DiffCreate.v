(** What is missing is created once, C37, and what is superfluous is dropped, C38. *)
From Coq Require Import Lia Permutation.
From Verif Require Import GoStr GoStrFacts ModelCatalog ModelCache CacheFacts ModelDdl ModelDiff ModelDiffSql SpecDiff DiffLookup DiffFacts DiffSelf DiffSqlite DiffPlan DiffSegments DiffDrops DiffKeys.

Lemma flat_map_in_nil : forall {A C} (f : A -> list C) l, (forall a, In a l -> f a = []) -> flat_map f l = [].
Proof. intros A C f l H. induction l as [|a l IH]; [reflexivity|]. cbn. rewrite (H a), IH; cbn; auto. intros; apply H; cbn; auto. Qed.
Lemma flat_map_in_ext : forall {A C} (f g : A -> list C) l, (forall a, In a l -> f a = g a) -> flat_map f l = flat_map g l.
Proof. intros A C f g l H. induction l as [|a l IH]; [reflexivity|]. cbn. rewrite (H a), IH; cbn; auto. intros; apply H; cbn; auto. Qed.
Lemma flatr_proj : forall {A C D} (f : A -> result (list C)) (g : C -> list D) (h : A -> list D) l r,
  flatr f l = Ok r -> (forall a x, In a l -> f a = Ok x -> flat_map g x = h a) -> flat_map g r = flat_map h l.
Proof.
  intros A C D f g h l. induction l as [|a l IH]; intros r H E; cbn [flatr] in H.
  - injection H as <-. reflexivity.
  - invert_binds H. injection H as <-. rewrite flat_map_app. cbn [flat_map]. rewrite (E a x); cbn; auto.
    f_equal. apply IH; [exact E1|]. intros. apply E; cbn; auto.
Qed.
Lemma filter_in_ext : forall {A} (f g : A -> bool) l, (forall a, In a l -> f a = g a) -> filter f l = filter g l.
Proof. intros A f g l H. induction l as [|a l IH]; [reflexivity|]. cbn. rewrite (H a), IH; cbn; auto. intros; apply H; cbn; auto. Qed.

(** ** The projections of a list of changes *)
Lemma changes_created : forall {C} (g : change -> list C) alter drop src dest,
  (forall c, (exists s, c = ChDropSchema s) \/ (exists t, c = ChDropTable t) \/ (exists k, c = ChDropFkey k) -> g c = []) ->
  flat_map g (all_changes alter drop src dest)
  = flat_map (fun ds =>
      match find_schema src (sc_name ds) with
      | None => (if is_empty (sc_name ds) then [] else g (ChCreateSchema (sc_name ds)))
                ++ flat_map (fun t => flat_map g (create_changes t)) (live_tables ds)
      | Some ss => flat_map (fun t => match find_table ss (tb_name t) with
                                      | None => flat_map g (create_changes t)
                                      | Some s => flat_map g (alter s t)
                                      end) (live_tables ds)
      end) (live_schemas dest).
Proof.
  intros C g alter drop src dest N.
  assert (NK : forall l, flat_map g (map ChDropFkey l) = []).
  { intro l. rewrite flat_map_map. apply flat_map_in_nil. intros k _. apply N. eauto. }
  unfold all_changes. rewrite flat_map_app.
  assert (D : flat_map g (keep drop (flat_map (drop_schema_changes dest) (live_schemas src))) = []).
  { destruct drop; [|reflexivity]. cbn [keep]. rewrite flat_map_flat_map. apply flat_map_in_nil. intros s _.
    unfold drop_schema_changes. destruct (find_schema dest (sc_name s)); [reflexivity|]. rewrite flat_map_app.
    replace (flat_map g (if is_empty (sc_name s) then [] else [ChDropSchema s])) with (@nil C).
    - cbn [app]. rewrite flat_map_flat_map. apply flat_map_in_nil. intros t _. apply NK.
    - destruct (is_empty (sc_name s)); [reflexivity|]. cbn. rewrite N by eauto. reflexivity. }
  rewrite D. cbn [app]. rewrite flat_map_flat_map. apply flat_map_ext. intro ds. unfold schema_changes.
  destruct (find_schema src (sc_name ds)) as [ss|].
  - rewrite flat_map_app.
    replace (flat_map g (keep drop (flat_map (drop_table_changes ds) (live_tables ss)))) with (@nil C).
    + cbn [app]. rewrite flat_map_flat_map. apply flat_map_ext. intro t. unfold table_changes.
      destruct (find_table ss (tb_name t)); reflexivity.
    + symmetry. destruct drop; [|reflexivity]. cbn [keep]. rewrite flat_map_flat_map. apply flat_map_in_nil. intros t _.
      unfold drop_table_changes. destruct (find_table ds (tb_name t)); [reflexivity|]. cbn [flat_map].
      rewrite N by eauto. apply NK.
  - rewrite flat_map_app, flat_map_flat_map. f_equal. destruct (is_empty (sc_name ds)); [reflexivity|]. cbn. apply app_nil_r.
Qed.

(** ** The statements of the parts *)
Lemma project_drops : forall {C} (g : stmt -> list C) d cur p, (forall t c, g (QDropConstraint t c) = []) ->
  flat_map g (drops_part d cur p) = [].
Proof.
  intros C g d cur p N. apply flat_map_in_nil. intros s Hs. apply drops_part_in in Hs. destruct Hs as (t & c & -> & _). apply N.
Qed.
Lemma project_adds : forall {C} (g : stmt -> list C) d cur p, (forall t c b, g (QAddConstraint t c b) = []) ->
  (forall t n, g (QValidate t n) = []) -> flat_map g (adds_part d cur p) = [].
Proof.
  intros C g d cur p N1 N2. apply flat_map_in_nil. intros s Hs. apply adds_part_in in Hs.
  destruct Hs as [(t & c & b & ->)|(t & n & ->)]; [apply N1|apply N2].
Qed.
Definition only_constraint (s : stmt) : bool :=
  match s with
  | QCreateSchema _ | QCreateTable _ _ | QAddColumn _ _ | QDropColumn _ _ => false
  | _ => true
  end.
Lemma project_alter : forall {C} (g : stmt -> list C) d flt cat a l, sql_dialect d = true -> alter_code d flt cat a = Ok l ->
  (forall s, only_constraint s = true -> g s = []) ->
  flat_map g l = flat_map (fun c => g (QDropColumn (alter_at cat a) (col_name c))) (al_drop_columns a)
                 ++ flat_map (fun c => g (QAddColumn (alter_at cat a) c)) (al_add_columns a).
Proof.
  intros C g d flt cat a l Q H N. destruct (alter_code_ok _ _ _ _ _ Q H) as (mid & -> & M). rewrite !flat_map_app.
  assert (Z1 : flat_map g mid = []).
  { apply flat_map_in_nil. intros s Hs. apply N. destruct (M s Hs) as [Z|[(t & c & ->)|[(t & c & ->)|[(t & c & ->)|(t & c & ->)]]]]; try reflexivity.
    destruct s; try discriminate Z; reflexivity. }
  assert (Z2 : flat_map g (map (fun x => QCreateIndex (created_at d cat a x) x (match d with Postgres => true | _ => false end)) (al_create_indexes a)) = []).
  { rewrite flat_map_map. apply flat_map_in_nil. intros x _. apply N. reflexivity. }
  assert (Z3 : flat_map g (flat_map (adds_keys d cat a) (al_add_constraints a)) = []).
  { rewrite flat_map_flat_map. apply flat_map_in_nil. intros c _. apply flat_map_in_nil. intros s Hs. apply N.
    destruct d; cbn in Hs; repeat (destruct Hs as [<-|Hs]; [reflexivity|]); contradiction. }
  rewrite Z1, Z2, Z3, !app_nil_r. rewrite flat_map_map. f_equal.
  unfold alter_first. rewrite flat_map_app, flat_map_map.
  replace (flat_map g _) with (@nil C); [reflexivity|]. symmetry. apply flat_map_in_nil. intros s Hs. apply N.
  assert (Y : In s (map (fun x => QDropIndex (dropped_at d cat a x) (ix_name x)) (al_drop_indexes a))
              \/ In s (map (QDropConstraint (alter_at cat a)) (al_drop_constraints a))).
  { destruct d; apply in_app_or in Hs; tauto. }
  destruct Y as [Y|Y]; apply in_map_iff in Y; destruct Y as (y & <- & _); reflexivity.
Qed.

(** ** Schemas *)
Lemma is_empty_nil : forall s, is_empty s = beqb s [].
Proof. intros [|c s]; reflexivity. Qed.
Theorem schemas_are_created : forall d flt prefix src dest drop files ws, sql_dialect d = true ->
  unique_tables (ct_schemas src) -> unique_tables (ct_schemas dest) ->
  readable_types d (ct_schemas src) -> readable_types d (ct_schemas dest) ->
  results d flt prefix src dest drop = Ok (files, ws) ->
  schemas_created (forward files) = new_schemas (ct_schemas src) (ct_schemas dest).
Proof.
  intros d flt prefix src dest drop files ws Q Us Ud Rs Rd H.
  destruct (segments _ _ _ _ _ _ _ _ Q H) as (l & p & alts & C & R & A & G). rewrite G. clear G H.
  rewrite (pure_changes d src dest drop Q Us Ud Rs Rd) in C. injection C as <-.
  unfold schemas_created. rewrite !flat_map_app.
  rewrite project_drops by reflexivity. rewrite project_adds by reflexivity. rewrite app_nil_r. cbn [app].
  rewrite (flatr_proj _ _ (fun _ => []) _ _ A).
  2: { intros a x _ X. rewrite (project_alter _ _ _ _ _ _ Q X); [|intros []; try discriminate; reflexivity].
       cbn. rewrite !flat_map_nil. reflexivity. }
  rewrite flat_map_nil, app_nil_r.
  replace (flat_map _ (table_stmts (ct_current src) p)) with (@nil bytes).
  2: { symmetry. apply flat_map_in_nil. intros s Hs. apply table_stmts_in in Hs.
       destruct Hs as [(? & ->)|[(? & _ & ->)|(? & ? & ? & ->)]]; reflexivity. }
  rewrite app_nil_r. unfold schema_stmts. rewrite flat_map_app, flat_map_map, flat_map_one, map_id.
  replace (flat_map _ _) with (@nil bytes).
  2: { symmetry. apply flat_map_in_nil. intros s Hs. destruct d; try discriminate Q.
       1,2: apply in_map_iff in Hs; destruct Hs as (? & <- & _); reflexivity.
       apply in_flat_map in Hs. destruct Hs as (sc & _ & Hs). unfold drop_schema_stmts in Hs. apply in_app_or in Hs.
       destruct Hs as [Hs|[<-|[]]]; [|reflexivity]. apply in_map_iff in Hs. destruct Hs as (? & <- & _). reflexivity. }
  cbn [app]. destruct (record_lists _ _ _ _ R) as (_ & L2 & _). cbn in L2. rewrite L2. clear R A L2.
  rewrite changes_created.
  2: { intros c [(s & ->)|[(t & ->)|(k & ->)]]; reflexivity. }
  assert (CC : forall t, flat_map ch_create_schema (create_changes t) = []).
  { intro t. unfold create_changes. cbn. rewrite flat_map_map. apply flat_map_nil. }
  assert (CA : forall s t, flat_map ch_create_schema (pure_alter d src drop s t) = []).
  { intros s t. apply flat_map_in_nil. intros c Hc. destruct d; try discriminate Q; cbn [pure_alter] in Hc;
      unfold mysql_changes, postgres_changes, sqlserver_changes in Hc; repeat (apply in_app_or in Hc; destruct Hc as [Hc|Hc]);
      try (apply in_map_iff in Hc; destruct Hc as (? & <- & _); reflexivity); apply recorded_in in Hc; subst c; reflexivity. }
  unfold new_schemas, live_schemas. rewrite <- flat_map_live.
  induction (ct_schemas dest) as [|ds l IH]; [reflexivity|]. cbn [flat_map filter].
  assert (Ud' : unique_tables l).
  { destruct Ud as (U1 & U2). split; [inversion U1; assumption|]. intros; apply U2; cbn; auto. }
  assert (Rd' : readable_types d l) by (intros s t c Hs; apply (Rd s t c); cbn; auto).
  rewrite (IH Ud' Rd'). destruct (sc_ignore ds); [reflexivity|]. cbn [negb andb].
  unfold lacks. rewrite <- (pick_the sc_name sc_ignore (ct_schemas src) _ (proj1 Us)). fold (find_schema (ct_schemas src)).
  rewrite <- is_empty_nil. destruct (find_schema (ct_schemas src) (sc_name ds)) as [ss|].
  - rewrite andb_false_r. replace (flat_map _ (live_tables ds)) with (@nil bytes); [reflexivity|]. symmetry.
    apply flat_map_in_nil. intros t _. destruct (find_table ss (tb_name t)); auto.
  - rewrite andb_true_r. rewrite (flat_map_in_nil _ (live_tables ds)) by auto. rewrite app_nil_r.
    destruct (is_empty (sc_name ds)); reflexivity.
Qed.

(** ** Tables *)
Lemma alter_creates_nothing : forall d cat drop s t, sql_dialect d = true -> flat_map ch_create_table (pure_alter d cat drop s t) = [].
Proof.
  intros d cat drop s t Q. apply flat_map_in_nil. intros c Hc. destruct d; try discriminate Q; cbn [pure_alter] in Hc;
    unfold mysql_changes, postgres_changes, sqlserver_changes in Hc; repeat (apply in_app_or in Hc; destruct Hc as [Hc|Hc]);
    try (apply in_map_iff in Hc; destruct Hc as (? & <- & _); reflexivity); apply recorded_in in Hc; subst c; reflexivity.
Qed.
Theorem tables_are_created : forall d flt prefix src dest drop files ws, sql_dialect d = true ->
  unique_tables (ct_schemas src) -> unique_tables (ct_schemas dest) ->
  readable_types d (ct_schemas src) -> readable_types d (ct_schemas dest) ->
  results d flt prefix src dest drop = Ok (files, ws) ->
  tables_created (forward files)
  = map (fun t => (qualify (ct_current src) (tb_schema t) (tb_name t), t)) (new_tables (ct_schemas src) (ct_schemas dest)).
Proof.
  intros d flt prefix src dest drop files ws Q Us Ud Rs Rd H.
  destruct (segments _ _ _ _ _ _ _ _ Q H) as (l & p & alts & C & R & A & G). rewrite G. clear G H.
  rewrite (pure_changes d src dest drop Q Us Ud Rs Rd) in C. injection C as <-.
  unfold tables_created. rewrite !flat_map_app.
  rewrite project_drops by reflexivity. rewrite project_adds by reflexivity. rewrite app_nil_r. cbn [app].
  rewrite (flatr_proj _ _ (fun _ => []) _ _ A).
  2: { intros a x _ X. rewrite (project_alter _ _ _ _ _ _ Q X); [|intros []; try discriminate; reflexivity].
       cbn. rewrite !flat_map_nil. reflexivity. }
  rewrite flat_map_nil, app_nil_r.
  rewrite (flat_map_in_nil _ (schema_stmts d (ct_current src) p)).
  2: { intros s Hs. apply schema_stmts_in in Hs. destruct Hs as [(? & ->)|[(? & ->)|(? & -> & _)]]; reflexivity. }
  cbn [app]. unfold table_stmts. rewrite flat_map_app, flat_map_map, flat_map_nil, flat_map_flat_map. cbn [app].
  rewrite (flat_map_in_ext _ (fun t => [(at_table (ct_current src) t, t)])).
  2: { intros t _. unfold create_with_indexes. cbn [flat_map]. rewrite flat_map_map, flat_map_nil. reflexivity. }
  rewrite flat_map_one. unfold at_table. f_equal.
  destruct (record_lists _ _ _ _ R) as (_ & _ & _ & L4 & _). cbn in L4. rewrite L4. clear R A L4.
  rewrite changes_created.
  2: { intros c [(s & ->)|[(t & ->)|(k & ->)]]; reflexivity. }
  assert (CC : forall t, flat_map ch_create_table (create_changes t) = [t]).
  { intro t. unfold create_changes. cbn. rewrite flat_map_map. rewrite (flat_map_in_nil _ (live_fkeys t)) by reflexivity. reflexivity. }
  unfold new_tables. rewrite flat_map_live. fold (live_schemas (ct_schemas dest)). apply flat_map_in_ext. intros ds Hds.
  apply live_schemas_in in Hds. destruct Hds as (Hds & _).
  rewrite <- (pick_the sc_name sc_ignore (ct_schemas src) _ (proj1 Us)). fold (find_schema (ct_schemas src)).
  destruct (find_schema (ct_schemas src) (sc_name ds)) as [ss|] eqn:S.
  - apply find_schema_in in S. destruct S as (Hss & _). destruct (proj2 Us ss Hss) as (U1 & _).
    unfold live_tables. rewrite <- flat_map_live. induction (sc_tables ds) as [|t l IH]; [reflexivity|].
    cbn [flat_map filter]. rewrite IH. destruct (tb_ignore t); [reflexivity|]. cbn [negb andb].
    unfold lacks. rewrite <- (pick_the tb_name tb_ignore (sc_tables ss) _ U1). fold (find_table ss).
    destruct (find_table ss (tb_name t)); [rewrite alter_creates_nothing by exact Q; reflexivity|]. rewrite CC. reflexivity.
  - replace (if is_empty (sc_name ds) then [] else ch_create_table (ChCreateSchema (sc_name ds))) with (@nil table)
      by (destruct (is_empty (sc_name ds)); reflexivity).
    cbn [app]. rewrite (flat_map_ext _ (fun t => [id t])) by exact CC. rewrite flat_map_one, map_id. unfold live_tables.
    apply filter_in_ext. intros t _. rewrite andb_true_r. reflexivity.
Qed.

(** ** Columns *)
Definition the_alter (d : dialect) (cat : catalog) (drop : bool) (s t : table) : alter :=
  match d with
  | MySQL => the_alter_mysql cat drop s t
  | Postgres => the_alter_postgres cat drop s t
  | _ => the_alter_sqlserver cat drop s t
  end.
Lemma alters_of : forall d cat drop s t, sql_dialect d = true ->
  flat_map ch_alter (pure_alter d cat drop s t) = flat_map ch_alter (recorded (the_alter d cat drop s t)).
Proof.
  intros d cat drop s t Q.
  assert (N : forall f (l : list constraint), (forall k, ch_alter (f k) = []) -> flat_map ch_alter (map f l) = []).
  { intros f l E. rewrite flat_map_map. apply flat_map_in_nil. auto. }
  destruct d; try discriminate Q; cbn [pure_alter the_alter].
  - unfold postgres_changes. rewrite !flat_map_app, !N by reflexivity. reflexivity.
  - unfold mysql_changes. rewrite !flat_map_app, !N by reflexivity. reflexivity.
  - unfold sqlserver_changes. rewrite !flat_map_app, !N by reflexivity.
    replace (flat_map ch_alter (map _ (warned s t))) with (@nil alter); [reflexivity|].
    symmetry. rewrite flat_map_map. apply flat_map_nil.
Qed.
Lemma alters_origin : forall d cat drop src dest, sql_dialect d = true ->
  unique_tables src -> unique_tables dest ->
  flat_map ch_alter (all_changes (pure_alter d cat drop) drop src dest)
  = flat_map (fun '(s, t) => flat_map ch_alter (recorded (the_alter d cat drop s t))) (old_tables src dest).
Proof.
  intros d cat drop src dest Q Us Ud. rewrite changes_created.
  2: { intros c [(s & ->)|[(t & ->)|(k & ->)]]; reflexivity. }
  assert (CC : forall t, flat_map ch_alter (create_changes t) = []).
  { intro t. unfold create_changes. cbn. rewrite flat_map_map. rewrite (flat_map_in_nil _ (live_fkeys t)) by reflexivity. reflexivity. }
  unfold old_tables. rewrite flat_map_flat_map. symmetry.
  transitivity (flat_map (fun ds => if sc_ignore ds then [] else
    flat_map (fun '(s, t) => flat_map ch_alter (recorded (the_alter d cat drop s t)))
    match the sc_name sc_ignore src (sc_name ds) with
    | None => []
    | Some ss =>
        flat_map (fun t => if tb_ignore t then [] else
          match the tb_name tb_ignore (sc_tables ss) (tb_name t) with
          | None => []
          | Some s => [(s, t)]
          end) (sc_tables ds)
    end) dest).
  { apply flat_map_ext. intro ds. destruct (sc_ignore ds); reflexivity. }
  symmetry.
  rewrite flat_map_live. fold (live_schemas dest). apply flat_map_ext. intro ds.
  rewrite <- (pick_the sc_name sc_ignore src _ (proj1 Us)). fold (find_schema src).
  destruct (find_schema src (sc_name ds)) as [ss|] eqn:S.
  - apply find_schema_in in S. destruct S as (Hss & _). destruct (proj2 Us ss Hss) as (U1 & _).
    rewrite flat_map_live. fold (live_tables ds). rewrite flat_map_flat_map. apply flat_map_ext. intro t.
    rewrite <- (pick_the tb_name tb_ignore (sc_tables ss) _ U1). fold (find_table ss).
    destruct (find_table ss (tb_name t)); [cbn; rewrite app_nil_r; apply alters_of; exact Q|]. rewrite CC. reflexivity.
  - replace (if is_empty (sc_name ds) then [] else ch_alter (ChCreateSchema (sc_name ds))) with (@nil alter)
      by (destruct (is_empty (sc_name ds)); reflexivity).
    cbn [app flat_map]. apply flat_map_in_nil. auto.
Qed.

Lemma old_tables_in : forall src dest s t, In (s, t) (old_tables src dest) ->
  exists ss ds, In ss src /\ In ds dest /\ sc_name ss = sc_name ds /\ In s (sc_tables ss) /\ In t (sc_tables ds) /\ tb_name s = tb_name t
    /\ tb_ignore t = false /\ tb_ignore s = false /\ sc_ignore ss = false /\ sc_ignore ds = false.
Proof.
  intros src dest s t H. apply in_flat_map in H. destruct H as (ds & Hds & H).
  destruct (sc_ignore ds) eqn:Ids; [contradiction|].
  destruct (the sc_name sc_ignore src (sc_name ds)) as [ss|] eqn:S; [|contradiction].
  apply find_some in S. destruct S as (Hss & S). apply andb_true_iff in S. destruct S as (S1 & S2). apply beqb_eq in S1.
  apply negb_true_iff in S2. apply in_flat_map in H. destruct H as (t' & Ht & H). destruct (tb_ignore t') eqn:It; [contradiction|].
  destruct (the tb_name tb_ignore (sc_tables ss) (tb_name t')) as [s'|] eqn:T; [|contradiction].
  apply find_some in T. destruct T as (Hs & T). apply andb_true_iff in T. destruct T as (T1 & T2). apply beqb_eq in T1.
  apply negb_true_iff in T2. destruct H as [H|[]]. injection H as -> ->. exists ss, ds. auto 12.
Qed.
Lemma only_cols_spec : forall a b, NoDup (map col_name (tb_columns b)) -> only_cols a b = extra_columns a b.
Proof.
  intros a b N. unfold only_cols, extra_columns, gone. apply filter_ext. intro c. unfold lacks, find_col.
  rewrite (pick_the _ _ _ _ N). destruct (the col_name col_ignore (tb_columns b) (col_name c)); reflexivity.
Qed.
Lemma the_alter_columns : forall d cat drop s t, sql_dialect d = true ->
  al_add_columns (the_alter d cat drop s t) = only_cols t s
  /\ al_drop_columns (the_alter d cat drop s t) = keep drop (only_cols s t)
  /\ alter_at cat (the_alter d cat drop s t) = home d (ct_current cat) t.
Proof.
  intros d cat drop s t Q. destruct d; try discriminate Q; cbn [the_alter].
  1,2: repeat split; reflexivity.
  repeat split. unfold alter_at, home. cbn [the_alter_sqlserver al_schema al_table]. unfold schema_sqlserver.
  destruct (tb_schema t) as [|c n] eqn:T, (ct_current cat) as [|e m] eqn:E; try reflexivity.
  unfold qualify. cbn [is_empty negb andb]. rewrite beqb_refl. reflexivity.
Qed.
Theorem columns_are_added : forall d flt prefix src dest drop files ws, sql_dialect d = true ->
  unique_names (ct_schemas src) -> unique_names (ct_schemas dest) ->
  readable_types d (ct_schemas src) -> readable_types d (ct_schemas dest) ->
  results d flt prefix src dest drop = Ok (files, ws) ->
  columns_added (forward files)
  = flat_map (fun '(s, t) => map (fun c => (home d (ct_current src) t, c)) (extra_columns t s))
      (old_tables (ct_schemas src) (ct_schemas dest)).
Proof.
  intros d flt prefix src dest drop files ws Q Us Ud Rs Rd H.
  destruct (segments _ _ _ _ _ _ _ _ Q H) as (l & p & alts & C & R & A & G). rewrite G. clear G H.
  rewrite (pure_changes d src dest drop Q (proj1 Us) (proj1 Ud) Rs Rd) in C. injection C as <-.
  unfold columns_added. rewrite !flat_map_app.
  rewrite project_drops by reflexivity. rewrite project_adds by reflexivity. rewrite app_nil_r. cbn [app].
  rewrite (flat_map_in_nil _ (schema_stmts d (ct_current src) p)).
  2: { intros s Hs. apply schema_stmts_in in Hs. destruct Hs as [(? & ->)|[(? & ->)|(? & -> & _)]]; reflexivity. }
  rewrite (flat_map_in_nil _ (table_stmts (ct_current src) p)).
  2: { intros s Hs. apply table_stmts_in in Hs. destruct Hs as [(? & ->)|[(? & _ & ->)|(? & ? & ? & ->)]]; reflexivity. }
  cbn [app]. rewrite (flatr_proj _ _ (fun a => map (fun c => (alter_at src a, c)) (al_add_columns a)) _ _ A).
  2: { intros a x _ X. rewrite (project_alter _ _ _ _ _ _ Q X); [|intros []; try discriminate; reflexivity].
       cbn. rewrite flat_map_nil, flat_map_one. reflexivity. }
  destruct (record_lists _ _ _ _ R) as (_ & _ & _ & _ & L5 & _). cbn - [all_changes] in L5. rewrite L5. clear R A L5.
  rewrite (alters_origin _ _ _ _ _ Q (proj1 Us) (proj1 Ud)), flat_map_flat_map. apply flat_map_in_ext.
  intros (s & t) H. apply old_tables_in in H. destruct H as (ss & ds & Hss & Hds & _ & Hs & Ht & _).
  destruct (proj2 Us ss s Hss Hs) as (U & _). rewrite <- (only_cols_spec t s U).
  destruct (the_alter_columns d src drop s t Q) as (E1 & _ & E3).
  unfold recorded. destruct (_ && _) eqn:N.
  - cbn. rewrite !andb_true_iff in N. destruct N as ((((((_ & _) & N) & _) & _) & _) & _). rewrite E1 in N.
    destruct (only_cols t s); [reflexivity|discriminate].
  - cbn. rewrite app_nil_r, E1, E3. reflexivity.
Qed.

Theorem columns_are_dropped : forall d flt prefix src dest files ws, sql_dialect d = true ->
  unique_names (ct_schemas src) -> unique_names (ct_schemas dest) ->
  readable_types d (ct_schemas src) -> readable_types d (ct_schemas dest) ->
  results d flt prefix src dest true = Ok (files, ws) ->
  columns_dropped (forward files)
  = flat_map (fun '(s, t) => if none (recorded (the_alter d src true s t)) then []
                             else map (fun c => (home d (ct_current src) t, col_name c)) (extra_columns s t))
      (old_tables (ct_schemas src) (ct_schemas dest)).
Proof.
  intros d flt prefix src dest files ws Q Us Ud Rs Rd H.
  destruct (segments _ _ _ _ _ _ _ _ Q H) as (l & p & alts & C & R & A & G). rewrite G. clear G H.
  rewrite (pure_changes d src dest true Q (proj1 Us) (proj1 Ud) Rs Rd) in C. injection C as <-.
  unfold columns_dropped. rewrite !flat_map_app.
  rewrite project_drops by reflexivity. rewrite project_adds by reflexivity. rewrite app_nil_r. cbn [app].
  rewrite (flat_map_in_nil _ (schema_stmts d (ct_current src) p)).
  2: { intros s Hs. apply schema_stmts_in in Hs. destruct Hs as [(? & ->)|[(? & ->)|(? & -> & _)]]; reflexivity. }
  rewrite (flat_map_in_nil _ (table_stmts (ct_current src) p)).
  2: { intros s Hs. apply table_stmts_in in Hs. destruct Hs as [(? & ->)|[(? & _ & ->)|(? & ? & ? & ->)]]; reflexivity. }
  cbn [app]. rewrite (flatr_proj _ _ (fun a => map (fun c => (alter_at src a, col_name c)) (al_drop_columns a)) _ _ A).
  2: { intros a x _ X. rewrite (project_alter _ _ _ _ _ _ Q X); [|intros []; try discriminate; reflexivity].
       cbn. rewrite flat_map_nil, flat_map_one, app_nil_r. reflexivity. }
  destruct (record_lists _ _ _ _ R) as (_ & _ & _ & _ & L5 & _). cbn - [all_changes] in L5. rewrite L5. clear R A L5.
  rewrite (alters_origin _ _ _ _ _ Q (proj1 Us) (proj1 Ud)), flat_map_flat_map. apply flat_map_in_ext.
  intros (s & t) H. apply old_tables_in in H. destruct H as (ss & ds & Hss & Hds & _ & Hs & Ht & _).
  destruct (proj2 Ud ds t Hds Ht) as (U & _). rewrite <- (only_cols_spec s t U).
  destruct (the_alter_columns d src true s t Q) as (_ & E2 & E3).
  unfold recorded. destruct (_ && _); [reflexivity|]. cbn [none flat_map ch_alter app]. rewrite app_nil_r, E2, E3. reflexivity.
Qed.

(** ** SQLite *)
Lemma is_virtual_b : forall t, is_virtualb t = is_virtual t.
Proof.
  intro t. unfold is_virtualb, is_virtual. f_equal. set (w := B"CREATE VIRTUAL TABLE").
  assert (L : List.length w = 20) by reflexivity. destruct (has_prefix (tb_sql t) w) eqn:H.
  - apply has_prefix_iff in H. destruct H as (r & ->). apply beqb_eq. rewrite <- L, firstn_app, Nat.sub_diag, firstn_all. apply app_nil_r.
  - destruct (beqb_spec (firstn 20 (tb_sql t)) w) as [E|]; [|reflexivity]. exfalso.
    assert (Z : has_prefix (tb_sql t) w = true); [|congruence]. apply has_prefix_iff. exists (skipn 20 (tb_sql t)).
    rewrite <- E. symmetry. apply firstn_skipn.
Qed.
Lemma the_map : forall {A} (f : A -> A) (name : A -> bytes) ign l n,
  (forall a, name (f a) = name a) -> (forall a, ign (f a) = ign a) -> the name ign (map f l) n = option_map f (the name ign l n).
Proof.
  intros A f name ign l n E1 E2. unfold the. induction l as [|a l IH]; [reflexivity|]. cbn. rewrite E1, E2.
  destruct (_ && _); [reflexivity|exact IH].
Qed.
Lemma filter_map_named : forall {A} (f : A -> A) (p : A -> bool) l, (forall a, p (f a) = p a) -> filter p (map f l) = map f (filter p l).
Proof.
  intros A f p l E. induction l as [|a l IH]; [reflexivity|]. cbn. rewrite E, IH. destruct (p a); reflexivity.
Qed.
Lemma named_ignored : forall t, tb_ignore (named_table t) = tb_ignore t.
Proof. intro t. unfold named_table. destruct (is_virtual t); reflexivity. Qed.
Lemma named_virtual : forall t, is_virtual (named_table t) = is_virtual t.
Proof. intro t. unfold named_table. destruct (is_virtual t) eqn:E; [exact E|]. exact E. Qed.
Lemma named_columns : forall t, tb_columns (named_table t) = tb_columns t.
Proof. intro t. unfold named_table. destruct (is_virtual t); reflexivity. Qed.
Lemma named_indexes : forall t, tb_indexes (named_table t) = tb_indexes t.
Proof. intro t. unfold named_table. destruct (is_virtual t); reflexivity. Qed.
Lemma find_named : forall s n, NoDup (map tb_name (sc_tables s)) ->
  find_table (named_schema s) n = option_map named_table (the tb_name tb_ignore (sc_tables s) n).
Proof.
  intros s n N. unfold find_table. rewrite pick_the.
  - cbn [named_schema with_tables sc_tables]. apply the_map; [apply named_table_name|apply named_ignored].
  - cbn [named_schema with_tables sc_tables]. rewrite map_map. erewrite map_ext; [exact N|]. apply named_table_name.
Qed.
Lemma new_tables_named : forall s d, NoDup (map tb_name (sc_tables s)) ->
  dropped_tables (named_schema d) (named_schema s) = map named_table (new_tables_sqlite s d).
Proof.
  intros s d N. unfold dropped_tables, new_tables_sqlite. cbn [named_schema with_tables sc_tables].
  rewrite filter_map_named.
  - f_equal. apply filter_ext. intro t. unfold ordinary, lacks. change (Schema (sc_name s) (map named_table (sc_tables s)) (sc_ignore s)) with (named_schema s).
    rewrite (find_named _ _ N), is_virtual_b, negb_orb. destruct (the _ _ _ _); reflexivity.
  - intro t. unfold ordinary. rewrite named_ignored, named_virtual, named_table_name. reflexivity.
Qed.
Lemma old_tables_named : forall drop s d, NoDup (map tb_name (sc_tables s)) ->
  altered_tables drop (named_schema s) (named_schema d)
  = flat_map (fun '(u, t) => sqlite_alters drop (named_table u) (named_table t)) (old_tables_sqlite s d).
Proof.
  intros drop s d N. unfold altered_tables, old_tables_sqlite. rewrite flat_map_flat_map.
  cbn [sc_tables]. change (sc_tables (named_schema d)) with (map named_table (sc_tables d)).
  rewrite filter_map_named by (intro t; unfold ordinary; rewrite named_ignored, named_virtual; reflexivity).
  rewrite flat_map_map. unfold ordinary. rewrite <- flat_map_live. apply flat_map_ext. intro t. rewrite is_virtual_b.
  destruct (_ || _); [reflexivity|]. rewrite named_table_name, (find_named _ _ N).
  destruct (the _ _ _ _); [cbn; rewrite app_nil_r|]; reflexivity.
Qed.

Definition copyb (a : sqlite_alter) : bool := match copied a with Ok b => b | _ => false end.
Lemma copied_all : forall l x, flatr (fun a => bindr (copied a) (fun b => Ok [(a, b)])) l = Ok x -> x = map (fun a => (a, copyb a)) l.
Proof.
  induction l as [|a l IH]; intros x H; cbn [flatr] in H; [injection H as <-; reflexivity|].
  invert_binds H. invert_binds E. injection E as <-. injection H as <-. cbn. rewrite (IH _ E0). unfold copyb. rewrite E1. reflexivity.
Qed.
Lemma sqlite_stmts_all : forall p l, sqlite_stmts p = Ok l ->
  exists before after, l = before
   ++ map (fun t => QDropTable (bare (tb_name t))) (sp_drop_tables p)
   ++ flat_map (fun t => QCreateTable (bare (tb_name t)) t :: map (fun x => QCreateIndex (bare (ix_table x)) x false) (tb_indexes t)) (sp_create_tables p)
   ++ flat_map (fun a => alter_stmts_sqlite a (copyb a)) (sp_alters p) ++ after
   /\ forall s, In s before \/ In s after -> exists b, s = QPragma b.
Proof.
  intros p l H. unfold sqlite_stmts in H. invert_binds H. apply copied_all in E. subst x.
  set (b := existsb snd _) in H. exists (if b then [QPragma true] else []), (if b then [QPragma false] else []). split.
  - injection H as <-. do 3 f_equal. rewrite flat_map_map. reflexivity.
  - destruct b; intros s [[<-|[]]|[<-|[]]] || intros s [[]|[]]; eauto.
Qed.
Definition was_copied (drop : bool) (p : table * table) : bool :=
  existsb copyb (sqlite_alters drop (named_table (fst p)) (named_table (snd p))).
Lemma sqlite_alters_cases : forall drop s d, sqlite_alters drop s d = [] \/ exists a, sqlite_alters drop s d = [a]
  /\ sa_src a = s /\ sa_dest a = d /\ sa_add_columns a = only_cols d s /\ sa_drop_columns a = keep drop (only_cols s d).
Proof.
  intros drop s d. unfold sqlite_alters. destruct (_ && _); [auto|]. destruct drop; [right; eexists; split; [reflexivity|auto]|].
  destruct (_ && _); [auto|]. right; eexists; split; [reflexivity|auto].
Qed.

Theorem sqlite_creates : forall flt prefix src dest drop files ws s ss d ds,
  ct_schemas src = s :: ss -> ct_schemas dest = d :: ds -> sqlite_names (ct_schemas src) -> sqlite_names (ct_schemas dest) ->
  results SQLite flt prefix src dest drop = Ok (files, ws) ->
  let rebuilt := filter (was_copied drop) (old_tables_sqlite s d) in
  let kept := filter (fun p => negb (was_copied drop p)) (old_tables_sqlite s d) in
  map (fun '(q, t) => (q, tb_columns t)) (tables_created (forward files))
  = map (fun t => (([], tb_name t), tb_columns t)) (new_tables_sqlite s d)
    ++ map (fun '(_, t) => (([], interim t), tb_columns t)) rebuilt
  /\ tables_renamed (forward files) = map (fun '(_, t) => (([], interim t), tb_name t)) rebuilt
  /\ columns_added (forward files) = flat_map (fun '(u, t) => map (fun c => (([], tb_name t), c)) (extra_columns t u)) kept
  /\ (drop = false -> rebuilt = []).
Proof.
  intros flt prefix src dest drop files ws s ss d ds Es Ed Us Ud H rebuilt kept.
  destruct (results_sqlite _ _ _ _ _ _ _ H) as (p & P & S & _). pose proof P as P'.
  rewrite (sqlite_plan_ok src dest drop s ss d ds Es Ed (proj1 Us) (proj1 Ud)) in P. injection P as <-.
  assert (Hs : In s (ct_schemas src)) by (rewrite Es; left; reflexivity).
  destruct (proj2 (proj1 Us) s Hs) as (Ns & _).
  rewrite (new_tables_named _ _ Ns), (old_tables_named _ _ _ Ns) in *.
  destruct (sqlite_stmts_all _ _ S) as (before & after & -> & BA). cbn [sp_drop_tables sp_create_tables sp_alters].
  assert (BN : forall {C} (g : stmt -> list C), (forall b, g (QPragma b) = []) -> flat_map g before = [] /\ flat_map g after = []).
  { intros C g E. split; apply flat_map_in_nil; intros x Hx; destruct (BA x) as (b & ->); auto. }
  (* the contribution of one pair *)
  assert (CO : forall u t, In (u, t) (old_tables_sqlite s d) ->
     only_cols (named_table t) (named_table u) = extra_columns t u).
  { intros u t Hp. apply in_flat_map in Hp. destruct Hp as (t' & Ht & Hp). destruct (_ || _) in Hp; [contradiction|].
    destruct (the tb_name tb_ignore (sc_tables s) (tb_name t')) as [u'|] eqn:T; [|contradiction]. destruct Hp as [Hp|[]]. injection Hp as -> ->.
    apply find_some in T. destruct T as (Hu & _). destruct (proj2 Us s u Hs Hu) as (Nc & _).
    rewrite only_cols_spec by (rewrite named_columns; exact Nc). unfold extra_columns. rewrite !named_columns. reflexivity. }
  assert (PR : forall {C} (g : stmt -> list C) (h1 h2 : table -> table -> list C),
     (forall u t, In (u, t) (old_tables_sqlite s d) -> flat_map g (copy_stmts (named_table u) (named_table t)) = h1 u t) ->
     (forall u t a, In (u, t) (old_tables_sqlite s d) -> sqlite_alters drop (named_table u) (named_table t) = [a] ->
        flat_map g (alter_stmts_sqlite a false) = h2 u t) ->
     (forall u t, In (u, t) (old_tables_sqlite s d) -> sqlite_alters drop (named_table u) (named_table t) = [] -> h2 u t = []) ->
     flat_map g (flat_map (fun a => alter_stmts_sqlite a (copyb a))
        (flat_map (fun '(u, t) => sqlite_alters drop (named_table u) (named_table t)) (old_tables_sqlite s d)))
     = flat_map (fun '(u, t) => if was_copied drop (u, t) then h1 u t else h2 u t) (old_tables_sqlite s d)).
  { intros C g h1 h2 E1 E2 E3. rewrite !flat_map_flat_map. apply flat_map_in_ext. intros (u & t) Hp.
    unfold was_copied. cbn [fst snd]. destruct (sqlite_alters_cases drop (named_table u) (named_table t)) as [Z|(a & Z & A1 & A2 & _)].
    - rewrite Z. cbn. symmetry. apply E3; assumption.
    - rewrite Z. cbn [flat_map existsb app]. rewrite app_nil_r, orb_false_r. destruct (copyb a) eqn:K.
      + rewrite <- (E1 u t Hp), <- A1, <- A2. reflexivity.
      + apply E2; assumption. }
  assert (FO : forall {C} (f : table * table -> list C) (b : table * table -> bool) l,
     flat_map (fun p => if b p then f p else []) l = flat_map f (filter b l)).
  { intros C f b l. induction l as [|x l IH]; [reflexivity|]. cbn. rewrite IH. destruct (b x); reflexivity. }
  assert (GT : forall u t a, sqlite_alters drop (named_table u) (named_table t) = [a] -> sa_dest a = named_table t
            /\ sa_add_columns a = only_cols (named_table t) (named_table u)).
  { intros u t a Z. destruct (sqlite_alters_cases drop (named_table u) (named_table t)) as [Y|(a' & Y & A1 & A2 & A3 & _)]; [congruence|].
    rewrite Z in Y. injection Y as <-. auto. }
  split; [|split; [|split]].
  - unfold tables_created. rewrite !flat_map_app. destruct (BN _ (fun s => match s with QCreateTable q t => [(q, t)] | _ => [] end) (fun _ => eq_refl)) as (-> & ->).
    rewrite app_nil_r. cbn [app].
    rewrite (flat_map_in_nil _ (map _ (keep drop _))) by (intros x Hx; apply in_map_iff in Hx; destruct Hx as (? & <- & _); reflexivity).
    cbn [app]. rewrite map_app. f_equal.
    + rewrite flat_map_map, flat_map_flat_map. rewrite (flat_map_in_ext _ (fun t => [(bare (tb_name t), named_table t)])).
      * rewrite flat_map_one, map_map. apply map_ext. intro t. rewrite named_columns. reflexivity.
      * intros t _. cbn [flat_map]. rewrite flat_map_map, flat_map_nil, named_table_name. reflexivity.
    + rewrite (PR _ _ (fun u t => [(bare (interim t), Table (tb_schema t) (interim t) (tb_sql t) (tb_virtual t) (tb_columns t) (tb_constraints (named_table t)) (tb_indexes t) (tb_ignore t))]) (fun _ _ => [])).
      * unfold rebuilt. rewrite (flat_map_ext _ (fun p => if was_copied drop p then (let t := snd p in [(bare (interim t), Table (tb_schema t) (interim t) (tb_sql t) (tb_virtual t) (tb_columns t) (tb_constraints (named_table t)) (tb_indexes t) (tb_ignore t))]) else [])) by (intros (u & t); reflexivity).
        rewrite FO. cbn zeta. rewrite flat_map_one, map_map. apply map_ext. intros (u & t). reflexivity.
      * intros u t _. unfold copy_stmts. cbn [flat_map app]. rewrite flat_map_map, flat_map_nil.
        unfold named_table, interim. destruct (is_virtual t); reflexivity.
      * intros u t a _ _. unfold alter_stmts_sqlite. rewrite !flat_map_app, !flat_map_map, !flat_map_nil. reflexivity.
      * reflexivity.
  - unfold tables_renamed. rewrite !flat_map_app. destruct (BN _ (fun s => match s with QRename q n => [(q, n)] | _ => [] end) (fun _ => eq_refl)) as (-> & ->).
    rewrite app_nil_r. cbn [app].
    rewrite (flat_map_in_nil _ (map _ (keep drop _))) by (intros x Hx; apply in_map_iff in Hx; destruct Hx as (? & <- & _); reflexivity).
    rewrite (flat_map_in_nil _ (flat_map _ (map named_table _))).
    2: { intros x Hx. apply in_flat_map in Hx. destruct Hx as (t & _ & [<-|Hx]); [reflexivity|]. apply in_map_iff in Hx. destruct Hx as (? & <- & _); reflexivity. }
    cbn [app]. rewrite (PR _ _ (fun u t => [(bare (interim t), tb_name t)]) (fun _ _ => [])).
    + unfold rebuilt. rewrite (flat_map_ext _ (fun p => if was_copied drop p then [(bare (interim (snd p)), tb_name (snd p))] else [])) by (intros (u & t); reflexivity).
      rewrite FO, flat_map_one. apply map_ext. intros (u & t). reflexivity.
    + intros u t _. unfold copy_stmts. cbn [flat_map app]. rewrite flat_map_map, flat_map_nil, named_table_name. reflexivity.
    + intros u t a _ _. unfold alter_stmts_sqlite. rewrite !flat_map_app, !flat_map_map, !flat_map_nil. reflexivity.
    + reflexivity.
  - unfold columns_added. rewrite !flat_map_app. destruct (BN _ (fun s => match s with QAddColumn q n => [(q, n)] | _ => [] end) (fun _ => eq_refl)) as (-> & ->).
    rewrite app_nil_r. cbn [app].
    rewrite (flat_map_in_nil _ (map _ (keep drop _))) by (intros x Hx; apply in_map_iff in Hx; destruct Hx as (? & <- & _); reflexivity).
    rewrite (flat_map_in_nil _ (flat_map _ (map named_table _))).
    2: { intros x Hx. apply in_flat_map in Hx. destruct Hx as (t & _ & [<-|Hx]); [reflexivity|]. apply in_map_iff in Hx. destruct Hx as (? & <- & _); reflexivity. }
    cbn [app]. rewrite (PR _ _ (fun u t => []) (fun u t => map (fun c => (bare (tb_name t), c)) (extra_columns t u))).
    + unfold kept. rewrite (flat_map_ext _ (fun p => if negb (was_copied drop p) then map (fun c => (bare (tb_name (snd p)), c)) (extra_columns (snd p) (fst p)) else [])).
      * rewrite FO. apply flat_map_ext. intros (u & t). reflexivity.
      * intros (u & t). destruct (was_copied drop (u, t)); reflexivity.
    + intros u t _. unfold copy_stmts. cbn [flat_map app]. rewrite flat_map_map, flat_map_nil. reflexivity.
    + intros u t a Hp Z. destruct (GT u t a Z) as (G1 & G2). unfold alter_stmts_sqlite. rewrite !flat_map_app, !flat_map_map, !flat_map_nil, G1, G2, (CO u t Hp), named_table_name, flat_map_one.
      rewrite app_nil_r. reflexivity.
    + intros u t Hp Z. rewrite <- (CO u t Hp). unfold sqlite_alters in Z.
      destruct (_ && _) eqn:N in Z.
      * rewrite !andb_true_iff in N. destruct N as (((((_ & _) & N) & _) & _) & _). destruct (only_cols (named_table t) (named_table u)); [reflexivity|discriminate].
      * destruct drop; [discriminate|]. destruct (_ && _) eqn:N2 in Z; [|discriminate]. apply andb_true_iff in N2. destruct N2 as (N2 & _).
        destruct (only_cols (named_table t) (named_table u)); [reflexivity|discriminate].
  - intros ->. unfold rebuilt. apply filter_none. intros (u & t) Hp. unfold was_copied. cbn [fst snd].
    destruct (sqlite_alters false (named_table u) (named_table t)) as [|a l] eqn:Z; [reflexivity|].
    assert (Q : l = []) by (destruct (sqlite_alters_cases false (named_table u) (named_table t)) as [Y|(a' & Y & _)]; congruence).
    subst l. cbn. rewrite orb_false_r. unfold copyb. destruct (copied a) as [b| |] eqn:K; try reflexivity.
    destruct (sqlite_plan_quiet _ _ _ P') as (_ & A). destruct (A a) as (A1 & A2 & A3 & A4 & A5).
    { cbn [sp_alters]. apply in_flat_map. exists (u, t). split; [exact Hp|]. rewrite Z. left. reflexivity. }
    eapply copied_quiet; eassumption.
Qed.

(** ** Superfluous columns *)
Lemma only_ixs_spec : forall a b, NoDup (map ix_name (tb_indexes b)) -> only_ixs a b = extra_indexes a b.
Proof.
  intros a b N. unfold only_ixs, extra_indexes, gone. apply filter_ext. intro c. unfold lacks, find_ix.
  rewrite (pick_the _ _ _ _ N). destruct (the ix_name ix_ignore (tb_indexes b) (ix_name c)); reflexivity.
Qed.
Lemma pair_in : forall s t a b, NoDup (map col_name (tb_columns s)) -> In a (tb_columns s) -> In b (tb_columns t) ->
  col_name a = col_name b -> col_ignore a = false -> col_ignore b = false -> In (a, b) (pairs_cols s t).
Proof.
  intros s t a b N Ha Hb E Ia Ib. apply both_in. split; [exact Hb|]. split; [exact Ib|]. unfold find_col. rewrite <- E.
  apply pick_unique; assumption.
Qed.
Lemma not_none : forall {A} (l : list A), l <> [] -> none l = false.
Proof. intros A [|a l] N; [contradiction|reflexivity]. Qed.
Lemma in_not_none : forall {A} (l : list A) a, In a l -> none l = false.
Proof. intros A [|b l] a H; [contradiction|reflexivity]. Qed.
Lemma altered_recorded : forall d cat s t, sql_dialect d = true ->
  NoDup (map col_name (tb_columns s)) -> NoDup (map ix_name (tb_indexes s)) -> NoDup (map ix_name (tb_indexes t)) ->
  altered_table s t -> none (recorded (the_alter d cat true s t)) = false.
Proof.
  intros d cat s t Q N1 N2 N3 H. unfold recorded.
  destruct (the_alter_columns d cat true s t Q) as (E1 & _ & _).
  assert (E2 : none (al_create_indexes (the_alter d cat true s t)) = true -> only_ixs t s = []).
  { destruct d; try discriminate Q; cbn [the_alter the_alter_mysql the_alter_postgres the_alter_sqlserver al_create_indexes];
      intro Z; destruct (only_ixs t s); try reflexivity; discriminate. }
  assert (E3 : none (al_drop_indexes (the_alter d cat true s t)) = true -> only_ixs s t = []).
  { destruct d; try discriminate Q; cbn [the_alter the_alter_mysql the_alter_postgres the_alter_sqlserver al_drop_indexes keep];
      intro Z; destruct (only_ixs s t); try reflexivity; discriminate. }
  assert (E4 : forall a b, In (a, b) (pairs_cols s t) -> col_notnull a <> col_notnull b -> col_pkey b = false ->
                 none (al_alter_columns (the_alter d cat true s t)) = false).
  { intros a b P X K. destruct d; try discriminate Q; cbn [the_alter the_alter_mysql the_alter_postgres the_alter_sqlserver al_alter_columns];
      apply (in_not_none _ (a, b)); apply filter_In; (split; [exact P|]).
    1,2: unfold differs; rewrite K; destruct (col_notnull a), (col_notnull b); cbn; rewrite ?orb_true_r; congruence || reflexivity.
    unfold differs_sqlserver; destruct (col_notnull a), (col_notnull b); cbn; rewrite ?orb_true_r; congruence || reflexivity. }
  match goal with |- none (if ?b then _ else _) = false => destruct b eqn:N; [exfalso|reflexivity] end.
  rewrite !andb_true_iff in N. destruct N as ((((((_ & NI) & NC) & NA) & _) & NX) & _).
  destruct H as [H|[H|[H|(a & b & Ha & Hb & E & Ia & Ib & X & K)]]].
  - apply H. rewrite <- (only_cols_spec t s N1), <- E1. destruct (al_add_columns _); [reflexivity|discriminate].
  - apply H. rewrite <- (only_ixs_spec s t N3). auto.
  - apply H. rewrite <- (only_ixs_spec t s N2). auto.
  - rewrite (E4 a b (pair_in _ _ _ _ N1 Ha Hb E Ia Ib) X K) in NA. discriminate.
Qed.

Theorem superfluous_columns : forall d flt prefix src dest files ws, sql_dialect d = true ->
  unique_names (ct_schemas src) -> unique_names (ct_schemas dest) ->
  readable_types d (ct_schemas src) -> readable_types d (ct_schemas dest) ->
  results d flt prefix src dest true = Ok (files, ws) ->
  (forall s t c, In (s, t) (old_tables (ct_schemas src) (ct_schemas dest)) -> altered_table s t -> In c (extra_columns s t) ->
     In (home d (ct_current src) t, col_name c) (columns_dropped (forward files)))
  /\ (forall q n, In (q, n) (columns_dropped (forward files)) -> exists s t c, In (s, t) (old_tables (ct_schemas src) (ct_schemas dest))
        /\ In c (extra_columns s t) /\ q = home d (ct_current src) t /\ n = col_name c).
Proof.
  intros d flt prefix src dest files ws Q Us Ud Rs Rd H. rewrite (columns_are_dropped _ _ _ _ _ _ _ Q Us Ud Rs Rd H). split.
  - intros s t c P A C. apply in_flat_map. exists (s, t). split; [exact P|].
    apply old_tables_in in P. destruct P as (ss & ds & Hss & Hds & _ & Hs & Ht & _).
    destruct (proj2 Us ss s Hss Hs) as (U1 & _ & U2). destruct (proj2 Ud ds t Hds Ht) as (_ & _ & U3).
    rewrite (altered_recorded d src s t Q U1 U2 U3 A). exact (in_map (fun c => (home d (ct_current src) t, col_name c)) _ _ C).
  - intros q n I. apply in_flat_map in I. destruct I as ((s & t) & P & I). destruct (none _) in I; [contradiction|].
    apply in_map_iff in I. destruct I as (c & E & I). injection E as <- <-. exists s, t, c. auto.
Qed.

Lemma old_tables_sqlite_in : forall s d u t, In (u, t) (old_tables_sqlite s d) ->
  In u (sc_tables s) /\ In t (sc_tables d) /\ tb_name u = tb_name t /\ tb_ignore u = false /\ tb_ignore t = false.
Proof.
  intros s d u t Hp. apply in_flat_map in Hp. destruct Hp as (t' & Ht & Hp). destruct (_ || _) eqn:I in Hp; [contradiction|].
  destruct (the tb_name tb_ignore (sc_tables s) (tb_name t')) as [u'|] eqn:T; [|contradiction]. destruct Hp as [Hp|[]]. injection Hp as -> ->.
  apply find_some in T. destruct T as (Hu & T). apply andb_true_iff in T. destruct T as (T1 & T2). apply beqb_eq in T1.
  apply negb_true_iff in T2. apply orb_false_iff in I. tauto.
Qed.
Theorem superfluous_columns_sqlite : forall flt prefix src dest files ws s ss d ds,
  ct_schemas src = s :: ss -> ct_schemas dest = d :: ds -> sqlite_names (ct_schemas src) -> sqlite_names (ct_schemas dest) ->
  results SQLite flt prefix src dest true = Ok (files, ws) ->
  (forall u t c, In (u, t) (old_tables_sqlite s d) -> altered_table u t -> In c (extra_columns u t) ->
     In (([], tb_name t), col_name c) (columns_dropped (forward files))
     \/ (In (([], interim t), tb_columns t) (map (fun '(q, x) => (q, tb_columns x)) (tables_created (forward files)))
         /\ In (([], interim t), tb_name t) (tables_renamed (forward files))))
  /\ (forall q n, In (q, n) (columns_dropped (forward files)) -> exists u t c, In (u, t) (old_tables_sqlite s d)
        /\ In c (extra_columns u t) /\ q = ([], tb_name t) /\ n = col_name c).
Proof.
  intros flt prefix src dest files ws s ss d ds Es Ed Us Ud H.
  destruct (sqlite_creates flt prefix src dest true files ws s ss d ds Es Ed Us Ud H) as (TC & TR & _).
  rewrite TC, TR. clear TC TR.
  destruct (results_sqlite _ _ _ _ _ _ _ H) as (p & P & S & _).
  rewrite (sqlite_plan_ok src dest true s ss d ds Es Ed (proj1 Us) (proj1 Ud)) in P. injection P as <-.
  assert (Hs : In s (ct_schemas src)) by (rewrite Es; left; reflexivity).
  assert (Hd : In d (ct_schemas dest)) by (rewrite Ed; left; reflexivity).
  destruct (proj2 (proj1 Us) s Hs) as (Ns & _).
  rewrite (new_tables_named _ _ Ns), (old_tables_named _ _ _ Ns) in *.
  destruct (sqlite_stmts_all _ _ S) as (before & after & -> & BA). cbn [sp_drop_tables sp_create_tables sp_alters].
  assert (DC : forall u t, In (u, t) (old_tables_sqlite s d) -> only_cols (named_table u) (named_table t) = extra_columns u t).
  { intros u t Hp. apply old_tables_sqlite_in in Hp. destruct Hp as (Hu & Ht & _). destruct (proj2 Ud d t Hd Ht) as (Nc & _).
    rewrite only_cols_spec by (rewrite named_columns; exact Nc). unfold extra_columns. rewrite !named_columns. reflexivity. }
  split.
  - intros u t c Hp A C. destruct (was_copied true (u, t)) eqn:W.
    + right. split.
      * apply in_or_app. right. apply in_map_iff. exists (u, t). split; [reflexivity|]. apply filter_In. auto.
      * apply in_map_iff. exists (u, t). split; [reflexivity|]. apply filter_In. auto.
    + left. pose proof (DC u t Hp) as D. apply old_tables_sqlite_in in Hp as I. destruct I as (Hu & Ht & _).
      destruct (proj2 Us s u Hs Hu) as (N1 & N2). destruct (proj2 Ud d t Hd Ht) as (N3 & N4).
      assert (Z : exists a, sqlite_alters true (named_table u) (named_table t) = [a] /\ sa_dest a = named_table t
               /\ sa_drop_columns a = only_cols (named_table u) (named_table t)).
      { unfold sqlite_alters. match goal with |- context [if ?b then [] else _] => destruct b eqn:N end.
        2: { eexists. split; [reflexivity|]. auto. }
        exfalso. rewrite !andb_true_iff in N. destruct N as (((((_ & NI) & NC) & NA) & NX) & _).
        rewrite only_ixs_spec in NI, NX by (rewrite named_indexes; assumption).
        rewrite only_cols_spec in NC by (rewrite named_columns; assumption).
        unfold extra_indexes in NI, NX. unfold extra_columns in NC. rewrite !named_indexes in NI, NX. rewrite !named_columns in NC.
        unfold altered_table, extra_indexes, extra_columns in A. destruct A as [A|[A|[A|(a & b & Ha & Hb & E & Ia & Ib & X & K)]]].
        - apply A. match goal with Z : none ?l = true |- ?l = [] => destruct l; [reflexivity|discriminate Z] end.
        - apply A. match goal with Z : none ?l = true |- ?l = [] => destruct l; [reflexivity|discriminate Z] end.
        - apply A. match goal with Z : none ?l = true |- ?l = [] => destruct l; [reflexivity|discriminate Z] end.
        - rewrite (in_not_none _ (a, b)) in NA; [discriminate|]. apply filter_In. split.
          + apply pair_in; rewrite ?named_columns; assumption.
          + unfold differ_sqlite. destruct (col_notnull a), (col_notnull b); cbn; rewrite ?orb_true_r; congruence || reflexivity. }
      destruct Z as (a & Z & Z1 & Z2).
      assert (K : copyb a = false).
      { unfold was_copied in W. cbn [fst snd] in W. rewrite Z in W. cbn in W. apply orb_false_iff in W. tauto. }
      unfold columns_dropped. apply in_flat_map. exists (QDropColumn (bare (tb_name t)) (col_name c)). split; [|left; reflexivity].
      apply in_or_app. right. apply in_or_app. right. apply in_or_app. right. apply in_or_app. left.
      apply in_flat_map. exists a. split.
      * apply in_flat_map. exists (u, t). split; [exact Hp|]. rewrite Z. left. reflexivity.
      * rewrite K. unfold alter_stmts_sqlite. apply in_or_app. right. apply in_or_app. left.
        rewrite Z1, Z2, D, named_table_name. exact (in_map (fun c => QDropColumn (bare (tb_name t)) (col_name c)) _ _ C).
  - intros q n I. unfold columns_dropped in I. apply in_flat_map in I. destruct I as (x & Hx & I).
    destruct x; try contradiction I. destruct I as [I|[]]. injection I as -> ->.
    apply in_app_or in Hx. destruct Hx as [Hx|Hx]; [destruct (BA _ (or_introl Hx)); discriminate|].
    apply in_app_or in Hx. destruct Hx as [Hx|Hx]; [apply in_map_iff in Hx; destruct Hx as (? & Z & _); discriminate|].
    apply in_app_or in Hx. destruct Hx as [Hx|Hx].
    { apply in_flat_map in Hx. destruct Hx as (? & _ & [Z|Hx]); [discriminate|]. apply in_map_iff in Hx. destruct Hx as (? & Z & _). discriminate. }
    apply in_app_or in Hx. destruct Hx as [Hx|Hx]; [|destruct (BA _ (or_intror Hx)); discriminate].
    apply in_flat_map in Hx. destruct Hx as (a & Ha & Hx). apply in_flat_map in Ha. destruct Ha as ((u & t) & Hp & Ha).
    destruct (sqlite_alters_cases true (named_table u) (named_table t)) as [Z|(a' & Z & Z1 & Z2 & Z3 & Z4)]; rewrite Z in Ha; [contradiction|].
    destruct Ha as [<-|[]]. unfold alter_stmts_sqlite in Hx. destruct (copyb a') in Hx.
    { unfold copy_stmts in Hx. cbn [app In] in Hx. repeat (destruct Hx as [Hx|Hx]; [discriminate|]). apply in_map_iff in Hx. destruct Hx as (? & Y & _). discriminate. }
    apply in_app_or in Hx. destruct Hx as [Hx|Hx]; [apply in_map_iff in Hx; destruct Hx as (? & Y & _); discriminate|].
    apply in_app_or in Hx. destruct Hx as [Hx|Hx].
    2: { apply in_app_or in Hx. destruct Hx as [Hx|Hx]; apply in_map_iff in Hx; destruct Hx as (? & Y & _); discriminate. }
    apply in_map_iff in Hx. destruct Hx as (c & Y & Hc). injection Y as <- <-. rewrite Z4 in Hc. cbn [keep] in Hc. rewrite (DC u t Hp) in Hc.
    exists u, t, c. rewrite Z2, named_table_name. auto.
Qed.
