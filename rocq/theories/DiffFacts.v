(** The comparison of two catalogs without the cache. *)
From Coq Require Import Lia.
From Verif Require Import GoStr GoStrFacts ModelCatalog ModelCache CacheFacts ModelDdl ModelDiff ModelDiffSql SpecDiff DiffLookup.

Definition find_col (t : table) : bytes -> option column := pick col_name col_ignore (tb_columns t).
Definition find_con (t : table) : bytes -> option constraint := pick_con (tb_constraints t).
Definition find_ix (t : table) : bytes -> option index := pick ix_name ix_ignore (tb_indexes t).
(** The objects of [a] that [b] does not have. *)
Definition only_cols (a b : table) : list column := gone col_name col_ignore (find_col b) (tb_columns a).
Definition only_cons (a b : table) : list constraint := gone con_name con_ignore (find_con b) (tb_constraints a).
Definition only_ixs (a b : table) : list index := gone ix_name ix_ignore (find_ix b) (tb_indexes a).
(** The objects of both. *)
Definition pairs_cols (s d : table) : list (column * column) := both col_name col_ignore (find_col s) (tb_columns d).
Definition pairs_cons (s d : table) : list (constraint * constraint) := both con_name con_ignore (find_con s) (tb_constraints d).

Definition keep {A} (b : bool) (l : list A) : list A := if b then l else [].
Lemma when_ok : forall {A} b (r : result (list A)) l, r = Ok l -> when b r = Ok (keep b l).
Proof. intros A [|] r l E; cbn; [exact E|reflexivity]. Qed.

(** Types. *)
Definition norm (d : dialect) (s : bytes) : bytes * bytes * bytes :=
  match normalize_column_type d s with Ok x => x | _ => ([], [], []) end.
Definition readable (d : dialect) (t : table) : Prop :=
  forall c, In c (tb_columns t) -> exists x, normalize_column_type d (col_type c) = Ok x.
Definition differs (d : dialect) (coll : bytes) (a b : column) : bool :=
  negb (teqb (norm d (col_type a)) (norm d (col_type b))) || negb (same_default d (col_default a) (col_default b))
  || (xorb (col_notnull a) (col_notnull b) && negb (col_pkey b))
  || xorb (is_empty (col_identity a)) (is_empty (col_identity b))
  || negb (same_collation coll (col_collation a) (col_collation b)).
Definition differs_sqlserver (coll : bytes) (a b : column) : bool :=
  negb (teqb (norm SQLServer (col_type a)) (norm SQLServer (col_type b)))
  || negb (same_default SQLServer (col_default a) (col_default b))
  || xorb (col_notnull a) (col_notnull b)
  || negb (same_collation coll (col_collation a) (col_collation b)).

Lemma both_in : forall {A} (name : A -> bytes) ign (f : bytes -> option A) l a b,
  In (a, b) (both name ign f l) <-> In b l /\ ign b = false /\ f (name b) = Some a.
Proof.
  intros A name ign f l a b. unfold both. rewrite in_flat_map. split.
  - intros (x & Hx & H). destruct (ign x) eqn:Ix; [contradiction|].
    destruct (f (name x)) as [y|] eqn:F; [|contradiction]. destruct H as [H|[]]. injection H as -> ->. auto.
  - intros (Hb & Ib & F). exists b. rewrite Ib, F. cbn. auto.
Qed.
Lemma gone_in : forall {A} (name : A -> bytes) ign (f : bytes -> option A) l a,
  In a (gone name ign f l) <-> In a l /\ ign a = false /\ f (name a) = None.
Proof.
  intros A name ign f l a. unfold gone. rewrite filter_In, andb_true_iff, negb_true_iff.
  destruct (f (name a)); cbn; split; intros (? & ? & ?); auto; congruence.
Qed.

Lemma same_type_ok : forall d a b x y, normalize_column_type d a = Ok x -> normalize_column_type d b = Ok y ->
  same_type d a b = Ok (teqb (norm d a) (norm d b)).
Proof. intros d a b x y Ha Hb. unfold same_type, norm. rewrite Ha, Hb. reflexivity. Qed.
Lemma differ_ok : forall d coll s t a b, readable d s -> readable d t ->
  In (a, b) (pairs_cols s t) -> differ d coll a b = Ok (differs d coll a b).
Proof.
  intros d coll s t a b Rs Rt H. apply both_in in H. destruct H as (Hb & _ & F). apply pick_some in F. destruct F as (Ha & _).
  destruct (Rs a Ha) as (x & X). destruct (Rt b Hb) as (y & Y).
  unfold differ, differs. rewrite (same_type_ok _ _ _ _ _ X Y). reflexivity.
Qed.
Lemma differ_sqlserver_ok : forall coll s t a b, readable SQLServer s -> readable SQLServer t ->
  In (a, b) (pairs_cols s t) -> differ_sqlserver coll a b = Ok (differs_sqlserver coll a b).
Proof.
  intros coll s t a b Rs Rt H. apply both_in in H. destruct H as (Hb & _ & F). apply pick_some in F. destruct F as (Ha & _).
  destruct (Rs a Ha) as (x & X). destruct (Rt b Hb) as (y & Y).
  unfold differ_sqlserver, differs_sqlserver. rewrite (same_type_ok _ _ _ _ _ X Y). reflexivity.
Qed.

(** The cache knows the table. *)
Record known (c : cache) (t : table) : Prop := {
  kn_column : forall n, look_column c t n = Ok (find_col t n);
  kn_constraint : forall n, look_constraint c t n = Ok (find_con t n);
  kn_index : forall n, look_index c t n = Ok (find_ix t n);
  kn_look_pkey : look_primary_key c t = Ok (pick con_type con_ignore (tb_constraints t) PRIMARY_KEY);
  kn_pkey : get_primary_key c t = at_pos con_ignore (tb_constraints t) (pkpos (tb_constraints t));
  kn_fkeys : get_foreign_keys c t = Ok (live_fkeys t)
}.
Lemma known_ok : forall schemas s t, unique_tables schemas -> In s schemas -> In t (sc_tables s) -> known (new_cache schemas) t.
Proof.
  intros schemas s t U Hs Ht. split; intros.
  - eapply look_column_pick; eassumption.
  - eapply look_constraint_pick; eassumption.
  - eapply look_index_pick; eassumption.
  - eapply look_primary_key_pick; eassumption.
  - eapply get_primary_key_pos; eassumption.
  - eapply get_foreign_keys_all; eassumption.
Qed.

Lemma missing_columns_ok : forall c a b, known c b -> missing_columns c b (tb_columns a) = Ok (only_cols a b).
Proof. intros c a b K. apply (missing_ok col_name col_ignore (look_column c b)). apply (kn_column _ _ K). Qed.
Lemma missing_constraints_ok : forall c a b, known c b -> missing_constraints c b (tb_constraints a) = Ok (only_cons a b).
Proof. intros c a b K. apply (missing_ok con_name con_ignore (look_constraint c b)). apply (kn_constraint _ _ K). Qed.
Lemma missing_indexes_ok : forall c a b, known c b -> missing_indexes c b (tb_indexes a) = Ok (only_ixs a b).
Proof. intros c a b K. apply (missing_ok ix_name ix_ignore (look_index c b)). apply (kn_index _ _ K). Qed.
Lemma shared_columns_ok : forall c s d, known c s -> shared_columns c s (tb_columns d) = Ok (pairs_cols s d).
Proof. intros c s d K. apply (shared_ok col_name col_ignore (look_column c s)). apply (kn_column _ _ K). Qed.
Lemma shared_constraints_ok : forall c s d, known c s -> shared_constraints c s (tb_constraints d) = Ok (pairs_cons s d).
Proof. intros c s d K. apply (shared_ok con_name con_ignore (look_constraint c s)). apply (kn_constraint _ _ K). Qed.

(** ** MySQL *)
Definition zero : bytes := [ascii_of_nat 0].
Definition rekeyed (a b : constraint) : bool :=
  is_pkey b && negb (beqb (join zero (con_columns a)) (join zero (con_columns b))).
Definition altered (d : dialect) (coll : bytes) (s t : table) : list (column * column) :=
  filter (fun '(a, b) => differs d coll a b) (pairs_cols s t).
Definition added_mysql (s d : table) : list constraint :=
  flat_map (fun b => if con_ignore b then [] else
    match find_con s (con_name b) with
    | None => if is_key b then [b] else []
    | Some a => if rekeyed a b then [b] else []
    end) (tb_constraints d).
Definition the_alter_mysql (cat : catalog) (drop : bool) (s d : table) : alter :=
  Alter (tb_schema d) (tb_name d) (keep drop (only_ixs s d))
    (filter is_key (keep drop (only_cons s d)) ++ map fst (filter (fun '(a, b) => rekeyed a b) (pairs_cons s d)))
    (keep drop (only_cols s d)) (only_cols d s) (altered MySQL (ct_collation cat) s d) [] []
    (only_ixs d s) (added_mysql s d) None.
Definition mysql_changes (cat : catalog) (drop : bool) (s d : table) : list change :=
  map ChDropFkey (filter is_fkey (keep drop (only_cons s d))) ++ map ChAddFkey (filter is_fkey (only_cons d s))
  ++ recorded (the_alter_mysql cat drop s d).

Lemma alter_mysql_ok : forall cat drop sc dc s d, known sc s -> known dc d -> readable MySQL s -> readable MySQL d ->
  alter_mysql cat drop sc dc s d = Ok (mysql_changes cat drop s d).
Proof.
  intros cat drop sc dc s d Ks Kd Rs Rd. unfold alter_mysql.
  rewrite (when_ok _ _ _ (missing_constraints_ok _ _ _ Kd)). cbn [bindr].
  rewrite (when_ok _ _ _ (missing_indexes_ok _ _ _ Kd)). cbn [bindr].
  rewrite (when_ok _ _ _ (missing_columns_ok _ _ _ Kd)). cbn [bindr].
  rewrite (missing_columns_ok _ _ _ Ks). cbn [bindr].
  rewrite (shared_columns_ok _ _ _ Ks). cbn [bindr].
  rewrite (filterr_ok _ (fun '(a, b) => differs MySQL (ct_collation cat) a b)).
  2: { intros [a b] H. apply (differ_ok _ _ _ _ _ _ Rs Rd H). }
  cbn [bindr].
  rewrite (missing_indexes_ok _ _ _ Ks). cbn [bindr].
  rewrite (missing_constraints_ok _ _ _ Ks). cbn [bindr].
  rewrite (shared_constraints_ok _ _ _ Ks). cbn [bindr].
  rewrite (flatr_ok _ (fun b => if con_ignore b then [] else
    match find_con s (con_name b) with
    | None => if is_key b then [b] else []
    | Some a => if rekeyed a b then [b] else []
    end)).
  2: { intros b _. destruct (con_ignore b); [reflexivity|]. rewrite (kn_constraint _ _ Ks). cbn [bindr].
       destruct (find_con s (con_name b)); reflexivity. }
  reflexivity.
Qed.

(** ** Postgres *)
Definition validated (cat : catalog) (l : list (column * column)) : list column :=
  map snd (filter (fun '(a, b) =>
    negb (col_notnull a) && col_notnull b && negb (lower_than (map Z.of_nat (ct_version cat)) [12%Z])) l).
Definition changed_constraints (s d : table) : list (constraint * constraint) :=
  filter (fun '(a, b) => xorb (con_deferrable a) (con_deferrable b) || xorb (con_deferred a) (con_deferred b)) (pairs_cons s d).
Definition old_pkey (drop : bool) (s d : table) : option constraint :=
  if existsb is_pkey (only_cons d s) && negb drop then pick con_type con_ignore (tb_constraints s) PRIMARY_KEY else None.
Definition opt_list {A} (o : option A) : list A := match o with Some c => [c] | None => [] end.
Definition the_alter_postgres (cat : catalog) (drop : bool) (s d : table) : alter :=
  Alter (tb_schema d) (tb_name d) (keep drop (only_ixs s d))
    (filter is_key (keep drop (only_cons s d)) ++ opt_list (old_pkey drop s d))
    (keep drop (only_cols s d)) (only_cols d s) (altered Postgres (ct_collation cat) s d)
    (changed_constraints s d) (validated cat (altered Postgres (ct_collation cat) s d))
    (only_ixs d s) (filter is_key (only_cons d s)) None.
Definition postgres_changes (cat : catalog) (drop : bool) (s d : table) : list change :=
  map ChDropFkey (filter is_fkey (keep drop (only_cons s d))) ++ map ChAddFkey (filter is_fkey (only_cons d s))
  ++ recorded (the_alter_postgres cat drop s d).

Lemma alter_postgres_ok : forall cat drop sc dc s d, known sc s -> known dc d -> readable Postgres s -> readable Postgres d ->
  alter_postgres cat drop sc dc s d = Ok (postgres_changes cat drop s d).
Proof.
  intros cat drop sc dc s d Ks Kd Rs Rd. unfold alter_postgres.
  rewrite (when_ok _ _ _ (missing_constraints_ok _ _ _ Kd)). cbn [bindr].
  rewrite (when_ok _ _ _ (missing_indexes_ok _ _ _ Kd)). cbn [bindr].
  rewrite (when_ok _ _ _ (missing_columns_ok _ _ _ Kd)). cbn [bindr].
  rewrite (missing_columns_ok _ _ _ Ks). cbn [bindr].
  rewrite (shared_columns_ok _ _ _ Ks). cbn [bindr].
  rewrite (filterr_ok _ (fun '(a, b) => differs Postgres (ct_collation cat) a b)).
  2: { intros [a b] H. apply (differ_ok _ _ _ _ _ _ Rs Rd H). }
  cbn [bindr].
  rewrite (missing_indexes_ok _ _ _ Ks). cbn [bindr].
  rewrite (missing_constraints_ok _ _ _ Ks). cbn [bindr].
  rewrite (shared_constraints_ok _ _ _ Ks). cbn [bindr].
  unfold postgres_changes, the_alter_postgres, old_pkey.
  destruct (existsb is_pkey (only_cons d s) && negb drop).
  - rewrite (kn_look_pkey _ _ Ks). reflexivity.
  - reflexivity.
Qed.

(** ** SQL Server *)
Definition altered_sqlserver (coll : bytes) (s t : table) : list (column * column) :=
  filter (fun '(a, b) => differs_sqlserver coll a b) (pairs_cols s t).
Definition live_pos {A} (ign : A -> bool) (l : list A) (p : option nat) : option nat :=
  match p with
  | Some i => match nth_error l i with Some a => if ign a then None else Some i | None => None end
  | None => None
  end.
Definition replaced (drop : bool) (s d : table) : list (nat * constraint) :=
  match live_pos con_ignore (tb_constraints s) (pkpos (tb_constraints s)),
        live_pos con_ignore (tb_constraints d) (pkpos (tb_constraints d)) with
  | Some i, Some j =>
      match nth_error (tb_constraints s) i, nth_error (tb_constraints d) j with
      | Some a, Some b => if negb drop && negb (beqb (con_name a) (con_name b)) then [(i, a)] else []
      | _, _ => []
      end
  | _, _ => []
  end.
Definition gone_cons (s d : table) : list (nat * constraint) :=
  filter (fun '(_, c) => negb (con_ignore c) && is_none (find_con d (con_name c))) (indexed (tb_constraints s)).
Definition dropped_ix (drop : bool) (s d : table) (x : index) : bool :=
  drop && existsb (fun y => beqb (ix_name y) (ix_name x)) (only_ixs s d).
Definition dropped_con (drop : bool) (s d : table) (i : nat) : bool :=
  (drop && existsb (fun p => fst p =? i) (gone_cons s d)) || existsb (fun p => fst p =? i) (replaced drop s d).
Definition dep_ixs (drop : bool) (coll : bytes) (s d : table) : list index :=
  flat_map (fun p => filter (fun x => negb (dropped_ix drop s d x))
    (dependents ix_columns (live_only ix_ignore (tb_indexes s)) (col_name (fst p)))) (altered_sqlserver coll s d).
Definition dep_cons (drop : bool) (coll : bytes) (s d : table) : list constraint :=
  map snd (flat_map (fun p => filter (fun x => negb (dropped_con drop s d (fst x)))
    (dependents (fun x => con_columns (snd x))
       (filter (fun x => negb (con_ignore (snd x))) (indexed (tb_constraints s)))
       (col_name (fst p)))) (altered_sqlserver coll s d)).
Definition last_pkey (d : table) : option constraint :=
  match rev (filter (fun c => is_pkey c && negb (con_ignore c)) (tb_constraints d)) with c :: _ => Some c | [] => None end.
Definition schema_sqlserver (cat : catalog) (d : table) : bytes :=
  match tb_schema d with [] => match ct_current cat with [] => B"dbo" | n => n end | n => n end.
Definition the_alter_sqlserver (cat : catalog) (drop : bool) (s d : table) : alter :=
  let coll := ct_collation cat in
  Alter (schema_sqlserver cat d) (tb_name d) (keep drop (only_ixs s d) ++ dep_ixs drop coll s d)
    (filter is_key (keep drop (only_cons s d)) ++ map snd (replaced drop s d) ++ filter is_key (dep_cons drop coll s d))
    (keep drop (only_cols s d)) (only_cols d s) (altered_sqlserver coll s d) [] []
    (only_ixs d s ++ dep_ixs drop coll s d)
    (filter is_key (only_cons d s) ++ filter is_key (dep_cons drop coll s d)) (last_pkey d).
Definition warned (s d : table) : list (column * column) :=
  filter (fun '(a, b) => is_empty (col_identity a) && negb (is_empty (col_identity b))) (pairs_cols s d).
Definition sqlserver_changes (cat : catalog) (drop : bool) (s d : table) : list change :=
  map (fun p => ChWarn (tb_schema d) (tb_name d) (col_name (snd p))) (warned s d)
  ++ map ChDropFkey (filter is_fkey (keep drop (only_cons s d))) ++ map ChAddFkey (filter is_fkey (only_cons d s))
  ++ map ChRecreateFkey (filter is_fkey (dep_cons drop (ct_collation cat) s d))
  ++ recorded (the_alter_sqlserver cat drop s d).

Lemma pkpos_live : forall l, at_pos con_ignore l (pkpos l) = Ok (live_pos con_ignore l (pkpos l)).
Proof.
  intro l. unfold at_pos, live_pos, pkpos. pose proof (last_pos_named con_type l PRIMARY_KEY) as P.
  destruct (last_pos con_type l PRIMARY_KEY) as [i|]; [|reflexivity]. destruct P as (_ & L).
  destruct (nth_error l i) as [a|] eqn:E; [reflexivity|]. apply nth_error_None in E. lia.
Qed.

Lemma alter_sqlserver_ok : forall cat drop sc dc s d, known sc s -> known dc d -> readable SQLServer s -> readable SQLServer d ->
  alter_sqlserver cat drop sc dc s d = Ok (sqlserver_changes cat drop s d).
Proof.
  intros cat drop sc dc s d Ks Kd Rs Rd. unfold alter_sqlserver.
  rewrite (when_ok _ _ _ (missing_constraints_ok _ _ _ Kd)). cbn [bindr].
  rewrite (when_ok _ _ _ (missing_indexes_ok _ _ _ Kd)). cbn [bindr].
  rewrite (when_ok _ _ _ (missing_columns_ok _ _ _ Kd)). cbn [bindr].
  rewrite (missing_columns_ok _ _ _ Ks). cbn [bindr].
  rewrite (shared_columns_ok _ _ _ Ks). cbn [bindr].
  rewrite (filterr_ok _ (fun '(a, b) => differs_sqlserver (ct_collation cat) a b)).
  2: { intros [a b] H. apply (differ_sqlserver_ok _ _ _ _ _ Rs Rd H). }
  cbn [bindr].
  rewrite (missing_indexes_ok _ _ _ Ks). cbn [bindr].
  rewrite (missing_constraints_ok _ _ _ Ks). cbn [bindr].
  rewrite (kn_pkey _ _ Kd), pkpos_live. cbn [bindr].
  rewrite (kn_pkey _ _ Ks), pkpos_live. cbn [bindr].
  rewrite (missing_indexes_ok _ _ _ Kd). cbn [bindr].
  rewrite (filterr_ok _ (fun '(_, c) => negb (con_ignore c) && is_none (find_con d (con_name c)))).
  2: { intros [i c] _. rewrite (kn_constraint _ _ Kd). destruct (con_ignore c); reflexivity. }
  cbn [bindr]. reflexivity.
Qed.

(** ** The loops over schemas and tables *)
Definition find_schema (l : list schema) : bytes -> option schema := pick sc_name sc_ignore l.
Definition find_table (s : schema) : bytes -> option table := pick tb_name tb_ignore (sc_tables s).
Definition live_tables (s : schema) : list table := filter (fun t => negb (tb_ignore t)) (sc_tables s).
Definition live_schemas (l : list schema) : list schema := filter (fun s => negb (sc_ignore s)) l.
Lemma flat_map_live : forall {A C} (ign : A -> bool) (f : A -> list C) l,
  flat_map (fun a => if ign a then [] else f a) l = flat_map f (filter (fun a => negb (ign a)) l).
Proof.
  intros A C ign f l. induction l as [|a l IH]; cbn; [reflexivity|]. destruct (ign a); cbn; rewrite IH; reflexivity.
Qed.

Definition drop_schema_changes (dest : list schema) (s : schema) : list change :=
  match find_schema dest (sc_name s) with
  | Some _ => []
  | None => (if is_empty (sc_name s) then [] else [ChDropSchema s])
            ++ flat_map (fun t => map ChDropFkey (live_fkeys t)) (live_tables s)
  end.
Definition create_changes (t : table) : list change := ChCreateTable t :: map ChFastFkey (live_fkeys t).
Definition drop_table_changes (ds : schema) (t : table) : list change :=
  match find_table ds (tb_name t) with
  | Some _ => []
  | None => ChDropTable t :: map ChDropFkey (live_fkeys t)
  end.
Definition table_changes (alter : table -> table -> list change) (ss : schema) (d : table) : list change :=
  match find_table ss (tb_name d) with
  | None => create_changes d
  | Some s => alter s d
  end.
Definition schema_changes (alter : table -> table -> list change) (drop : bool) (src : list schema) (ds : schema) : list change :=
  match find_schema src (sc_name ds) with
  | None => (if is_empty (sc_name ds) then [] else [ChCreateSchema (sc_name ds)]) ++ flat_map create_changes (live_tables ds)
  | Some ss => keep drop (flat_map (drop_table_changes ds) (live_tables ss))
               ++ flat_map (table_changes alter ss) (live_tables ds)
  end.
Definition all_changes (alter : table -> table -> list change) (drop : bool) (src dest : list schema) : list change :=
  keep drop (flat_map (drop_schema_changes dest) (live_schemas src))
  ++ flat_map (schema_changes alter drop src) (live_schemas dest).

Lemma changes_ok : forall (alter_table : alter_fun) alter src dest drop,
  unique_tables (ct_schemas src) -> unique_tables (ct_schemas dest) ->
  (forall ss s ds d, In ss (ct_schemas src) -> In s (sc_tables ss) -> In ds (ct_schemas dest) -> In d (sc_tables ds) ->
     alter_table src drop (new_cache (ct_schemas src)) (new_cache (ct_schemas dest)) s d = Ok (alter s d)) ->
  changes alter_table src dest drop = Ok (all_changes alter drop (ct_schemas src) (ct_schemas dest)).
Proof.
  intros alter_table alter src dest drop Us Ud H. unfold changes.
  assert (KS : forall ss s, In ss (ct_schemas src) -> In s (sc_tables ss) -> known (new_cache (ct_schemas src)) s)
    by (intros; eapply known_ok; eassumption).
  assert (KD : forall ss s, In ss (ct_schemas dest) -> In s (sc_tables ss) -> known (new_cache (ct_schemas dest)) s)
    by (intros; eapply known_ok; eassumption).
  rewrite (when_ok _ _ (flat_map (drop_schema_changes (ct_schemas dest)) (live_schemas (ct_schemas src)))).
  2: { unfold live_schemas. rewrite <- flat_map_live. apply flatr_ok. intros s Hs. unfold drop_schema.
       destruct (sc_ignore s); [reflexivity|]. rewrite look_schema_pick. cbn [bindr].
       unfold drop_schema_changes, find_schema. destruct (pick sc_name sc_ignore (ct_schemas dest) (sc_name s)); [reflexivity|].
       rewrite (flatr_ok _ (fun t => if tb_ignore t then [] else map ChDropFkey (live_fkeys t))).
       - cbn [bindr]. rewrite flat_map_live. reflexivity.
       - intros t Ht. destruct (tb_ignore t); [reflexivity|]. unfold keys_of. cbn [st_cache new_state].
         rewrite (kn_fkeys _ _ (KS s t Hs Ht)). reflexivity. }
  cbn [bindr].
  assert (C : forall ds d, In ds (ct_schemas dest) -> In d (sc_tables ds) ->
    create_table (new_state (ct_schemas dest)) d = Ok (create_changes d)).
  { intros ds d Hds Hd. unfold create_table, keys_of. cbn [st_cache new_state].
    rewrite (kn_fkeys _ _ (KD ds d Hds Hd)). reflexivity. }
  rewrite (flatr_ok _ (fun ds => if sc_ignore ds then [] else schema_changes alter drop (ct_schemas src) ds)).
  - cbn [bindr]. rewrite flat_map_live. reflexivity.
  - intros ds Hds. unfold change_schema. destruct (sc_ignore ds); [reflexivity|].
    rewrite look_schema_pick. cbn [bindr]. unfold schema_changes, find_schema.
    destruct (pick sc_name sc_ignore (ct_schemas src) (sc_name ds)) as [ss|] eqn:P.
    + apply pick_some in P. destruct P as (Hss & _).
      rewrite (when_ok _ _ (flat_map (drop_table_changes ds) (live_tables ss))).
      2: { unfold live_tables. rewrite <- flat_map_live. apply flatr_ok. intros t Ht. destruct (tb_ignore t); [reflexivity|].
           cbn [st_cache new_state]. rewrite (look_table_pick _ _ _ Ud Hds). cbn [bindr].
           unfold drop_table_changes, find_table. destruct (pick tb_name tb_ignore (sc_tables ds) (tb_name t)); [reflexivity|].
           unfold keys_of. cbn [st_cache new_state]. rewrite (kn_fkeys _ _ (KS ss t Hss Ht)). reflexivity. }
      cbn [bindr].
      rewrite (flatr_ok _ (fun t => if tb_ignore t then [] else table_changes alter ss t)).
      * cbn [bindr]. rewrite flat_map_live. reflexivity.
      * intros d Hd. unfold change_table. destruct (tb_ignore d); [reflexivity|]. cbn [st_cache new_state].
        rewrite (look_table_pick _ _ _ Us Hss). cbn [bindr]. unfold table_changes, find_table.
        destruct (pick tb_name tb_ignore (sc_tables ss) (tb_name d)) as [s|] eqn:Q.
        -- apply pick_some in Q. destruct Q as (Hs & _). apply (H ss s ds d); assumption.
        -- apply (C ds d); assumption.
    + unfold create_tables.
      rewrite (flatr_ok _ (fun t => if tb_ignore t then [] else create_changes t)).
      * cbn [bindr]. rewrite flat_map_live. reflexivity.
      * intros d Hd. destruct (tb_ignore d); [reflexivity|]. apply (C ds d); assumption.
Qed.

Definition pure_alter (d : dialect) (cat : catalog) (drop : bool) : table -> table -> list change :=
  match d with
  | MySQL => mysql_changes cat drop
  | Postgres => postgres_changes cat drop
  | _ => sqlserver_changes cat drop
  end.
Definition code_alter (d : dialect) : alter_fun :=
  match d with
  | MySQL => alter_mysql
  | Postgres => alter_postgres
  | _ => alter_sqlserver
  end.
Definition sql_dialect (d : dialect) : bool := match d with MySQL | Postgres | SQLServer => true | _ => false end.
Theorem pure_changes : forall d src dest drop, sql_dialect d = true ->
  unique_tables (ct_schemas src) -> unique_tables (ct_schemas dest) ->
  readable_types d (ct_schemas src) -> readable_types d (ct_schemas dest) ->
  changes (code_alter d) src dest drop = Ok (all_changes (pure_alter d src drop) drop (ct_schemas src) (ct_schemas dest)).
Proof.
  intros d src dest drop Q Us Ud Rs Rd. apply changes_ok; [exact Us|exact Ud|].
  intros ss s ds t Hss Hs Hds Ht.
  pose proof (known_ok _ _ _ Us Hss Hs) as Ks. pose proof (known_ok _ _ _ Ud Hds Ht) as Kd.
  assert (As : readable d s) by (intros c Hc; eapply Rs; eassumption).
  assert (Ad : readable d t) by (intros c Hc; eapply Rd; eassumption).
  destruct d; try discriminate Q; cbn [code_alter pure_alter].
  - apply alter_postgres_ok; assumption.
  - apply alter_mysql_ok; assumption.
  - apply alter_sqlserver_ok; assumption.
Qed.
