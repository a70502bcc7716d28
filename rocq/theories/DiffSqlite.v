(** The comparison of two SQLite catalogs without the cache. *)
From Coq Require Import Lia.
From Verif Require Import GoStr GoStrFacts ModelCatalog ModelCache CacheFacts ModelDdl ModelDiff ModelDiffSql SpecDiff DiffLookup DiffFacts DiffSelf.

Definition altered_sqlite (s d : table) : list (column * column) := filter (fun '(a, b) => differ_sqlite a b) (pairs_cols s d).
Definition sqlite_alters (drop : bool) (s d : table) : list sqlite_alter :=
  if none (only_cons s d) && none (only_ixs s d) && none (only_cols d s) && none (altered_sqlite s d)
     && none (only_ixs d s) && none (only_cons d s) then []
  else if drop then [SqliteAlter s d (only_ixs s d) (only_cons s d) (only_cols s d) (only_cols d s) (altered_sqlite s d)
                       (only_cons d s) (only_ixs d s) (map col_name (only_cols s d)) (map col_name (only_cols d s))]
  else if none (only_cols d s) && none (only_ixs d s) then []
  else [SqliteAlter s d [] [] [] (only_cols d s) [] [] (only_ixs d s) (map col_name (only_cols s d)) (map col_name (only_cols d s))].

Lemma alter_sqlite_ok : forall drop sc dc s d, known sc s -> known dc d -> alter_sqlite drop sc dc s d = Ok (sqlite_alters drop s d).
Proof.
  intros drop sc dc s d Ks Kd. unfold alter_sqlite.
  rewrite (missing_constraints_ok _ _ _ Kd). cbn [bindr].
  rewrite (missing_indexes_ok _ _ _ Kd). cbn [bindr].
  rewrite (missing_columns_ok _ _ _ Kd). cbn [bindr].
  rewrite (missing_columns_ok _ _ _ Ks). cbn [bindr].
  rewrite (shared_columns_ok _ _ _ Ks). cbn [bindr].
  rewrite (missing_indexes_ok _ _ _ Ks). cbn [bindr].
  rewrite (missing_constraints_ok _ _ _ Ks). cbn [bindr].
  reflexivity.
Qed.

Definition ordinary (t : table) : bool := negb (tb_ignore t || is_virtual t).
(** The parts of the plan for the first schemas of the two catalogs. *)
Definition dropped_tables (s d : schema) : list table :=
  filter (fun t => ordinary t && is_none (find_table d (tb_name t))) (sc_tables s).
Definition altered_tables (drop : bool) (s d : schema) : list sqlite_alter :=
  flat_map (fun t => match find_table s (tb_name t) with None => [] | Some u => sqlite_alters drop u t end)
    (filter ordinary (sc_tables d)).

Lemma named_schema_name : forall s, sc_name (named_schema s) = sc_name s.
Proof. reflexivity. Qed.
Lemma named_table_name : forall t, tb_name (named_table t) = tb_name t.
Proof. intro t. unfold named_table. destruct (is_virtual t); reflexivity. Qed.
Lemma named_table_schema : forall t, tb_schema (named_table t) = tb_schema t.
Proof. intro t. unfold named_table. destruct (is_virtual t); reflexivity. Qed.
Lemma named_unique : forall l, unique_tables l -> unique_tables (map named_schema l).
Proof.
  intros l (N & U). split.
  - rewrite map_map. exact N.
  - intros s Hs. apply in_map_iff in Hs. destruct Hs as (s0 & <- & Hs). destruct (U s0 Hs) as (U1 & U2). split.
    + cbn [named_schema with_tables sc_tables]. rewrite map_map. erewrite map_ext; [exact U1|]. apply named_table_name.
    + intros t Ht. cbn [named_schema with_tables sc_tables] in Ht. apply in_map_iff in Ht. destruct Ht as (t0 & <- & Ht).
      rewrite named_table_schema. apply U2. exact Ht.
Qed.

Lemma sqlite_plan_ok : forall src dest drop s ss d ds, ct_schemas src = s :: ss -> ct_schemas dest = d :: ds ->
  unique_tables (ct_schemas src) -> unique_tables (ct_schemas dest) ->
  new_sqlite_migration src dest drop
  = Ok (SqlitePlan (keep drop (dropped_tables (named_schema s) (named_schema d))) (dropped_tables (named_schema d) (named_schema s))
          (altered_tables drop (named_schema s) (named_schema d))).
Proof.
  intros src dest drop s ss d ds Es Ed Us Ud. unfold new_sqlite_migration.
  apply named_unique in Us. apply named_unique in Ud. rewrite Es, Ed in *.
  remember (map named_schema (s :: ss)) as srcs eqn:Hsrcs. remember (map named_schema (d :: ds)) as dests eqn:Hdests.
  destruct srcs as [|s' srcs]; [discriminate|]. destruct dests as [|d' dests]; [discriminate|].
  cbn [map] in Hsrcs, Hdests. injection Hsrcs as Hs' _. injection Hdests as Hd' _. rewrite <- Hs', <- Hd'. clear Hs' Hd'.
  assert (Hs : In s' (s' :: srcs)) by (left; reflexivity).
  assert (Hd : In d' (d' :: dests)) by (left; reflexivity).
  rewrite (when_ok _ _ (dropped_tables s' d')).
  2: { apply filterr_ok. intros t Ht. unfold ordinary. destruct (tb_ignore t || is_virtual t); [reflexivity|].
       rewrite (look_table_pick _ _ _ Ud Hd). reflexivity. }
  cbn [bindr].
  rewrite (filterr_ok _ (fun t => ordinary t && is_none (find_table s' (tb_name t)))).
  2: { intros t Ht. unfold ordinary. destruct (tb_ignore t || is_virtual t); [reflexivity|].
       rewrite (look_table_pick _ _ _ Us Hs). reflexivity. }
  cbn [bindr].
  rewrite (flatr_ok _ (fun t => if tb_ignore t || is_virtual t then []
                                else match find_table s' (tb_name t) with None => [] | Some u => sqlite_alters drop u t end)).
  2: { intros t Ht. destruct (tb_ignore t || is_virtual t); [reflexivity|].
       rewrite (look_table_pick _ _ _ Us Hs). cbn [bindr]. unfold find_table.
       destruct (pick tb_name tb_ignore (sc_tables s') (tb_name t)) as [u|] eqn:P; [|reflexivity].
       apply pick_some in P. destruct P as (Hu & _).
       apply alter_sqlite_ok; eapply known_ok; eassumption. }
  cbn [bindr]. rewrite (flat_map_live (fun t => tb_ignore t || is_virtual t)). reflexivity.
Qed.

(** ** A catalog and itself *)
Lemma generate_name_nonempty : forall k t cols, k <> OtherKind -> generate_name k t cols <> [].
Proof.
  intros k t cols N E. unfold generate_name in E.
  destruct (0 <? _) in E; apply app_eq_nil in E; destruct E as (_ & E); destruct k; discriminate || contradiction.
Qed.
Lemma compared_name_ok : forall c, con_name (named_constraint c) = compared_name c.
Proof.
  intros c. unfold named_constraint, name_kind_of, compared_name.
  destruct (beqb (con_type c) PRIMARY_KEY); [reflexivity|]. destruct (beqb (con_type c) UNIQUE); [reflexivity|].
  destruct (beqb (con_type c) FOREIGN_KEY); reflexivity.
Qed.
Lemma compared_name_nonempty : forall a,
  con_type a = PRIMARY_KEY \/ con_type a = UNIQUE \/ con_type a = FOREIGN_KEY \/ con_name a <> [] -> compared_name a <> [].
Proof.
  intros a H. unfold compared_name.
  destruct (beqb_spec (con_type a) PRIMARY_KEY); [apply generate_name_nonempty; discriminate|].
  destruct (beqb_spec (con_type a) UNIQUE); [apply generate_name_nonempty; discriminate|].
  destruct (beqb_spec (con_type a) FOREIGN_KEY); [apply generate_name_nonempty; discriminate|]. tauto.
Qed.
Lemma named_ignore : forall c, con_ignore (named_constraint c) = con_ignore c.
Proof. intro c. unfold named_constraint. destruct (name_kind_of (con_type c)); reflexivity. Qed.
Lemma is_virtual_spec : forall t, is_virtual t = true <-> is_virtual_table t.
Proof.
  intro t. unfold is_virtual, is_virtual_table. rewrite orb_true_iff.
  assert (H : has_prefix (tb_sql t) (B"CREATE VIRTUAL TABLE") = true <-> exists r, tb_sql t = B"CREATE VIRTUAL TABLE" ++ r).
  { split.
    - intro H. apply has_prefix_iff in H. exact H.
    - intros (r & H). apply has_prefix_iff. exists r. exact H. }
  rewrite H. tauto.
Qed.

Lemma sqlite_alters_self : forall drop t, NoDup (map col_name (tb_columns t)) -> NoDup (map ix_name (tb_indexes t)) ->
  (forall a b, In a (tb_constraints t) -> In b (tb_constraints t) -> con_name a <> []
     /\ (con_name a = con_name b -> con_ignore a = con_ignore b)) ->
  sqlite_alters drop t t = [].
Proof.
  intros drop t N1 N3 H. unfold sqlite_alters. rewrite (only_ixs_self _ N3), (only_cols_self _ N1).
  assert (E : altered_sqlite t t = []).
  { apply filter_none. intros [a b] P. apply (pairs_cols_self _ _ _ N1) in P. subst b.
    unfold differ_sqlite, same_default. rewrite !beqb_refl, xorb_nilpotent. reflexivity. }
  rewrite E. clear E.
  assert (E : only_cons t t = []).
  { apply nil_if_not_in. intros c Hc. apply gone_in in Hc. destruct Hc as (Hc & Ic & P).
    unfold find_con, pick_con in P. replace (some_name (con_name c)) with true in P.
    2: { symmetry. apply some_name_spec. apply (H c c Hc Hc). }
    unfold pick in P. destruct (last_named con_name (tb_constraints t) (con_name c)) as [b|] eqn:L.
    - apply last_named_in in L. destruct L as (Hb & Eb). destruct (H b c Hb Hc) as (_ & G). rewrite (G Eb), Ic in P. discriminate.
    - exact (last_named_none _ _ _ L c Hc eq_refl). }
  rewrite E. reflexivity.
Qed.

Theorem self_is_quiet_sqlite : forall flt prefix c drop,
  sqlite_names (ct_schemas c) -> sqlite_constraints (ct_schemas c) ->
  results SQLite flt prefix c c drop = Ok ([], []).
Proof.
  intros flt prefix c drop (U & N) K. cbn [results]. destruct (ct_schemas c) as [|s ss] eqn:E.
  - unfold new_sqlite_migration. rewrite E. reflexivity.
  - rewrite (sqlite_plan_ok c c drop s ss s ss E E) by (rewrite E; exact U).
    assert (Hs : In s (s :: ss)) by (left; reflexivity).
    pose proof (named_unique _ U) as (_ & U'). destruct (U' (named_schema s) (or_introl eq_refl)) as (Nt & _).
    assert (F : forall t, In t (sc_tables (named_schema s)) -> ordinary t = true -> find_table (named_schema s) (tb_name t) = Some t).
    { intros t Ht O. apply pick_unique; [exact Nt|exact Ht|]. unfold ordinary in O. destruct (tb_ignore t); [discriminate|reflexivity]. }
    assert (D : dropped_tables (named_schema s) (named_schema s) = []).
    { apply filter_none. intros t Ht. destruct (ordinary t) eqn:O; [|reflexivity]. rewrite (F t Ht O). reflexivity. }
    rewrite D, keep_nil.
    assert (A : altered_tables drop (named_schema s) (named_schema s) = []).
    { apply flat_map_none. intros t Ht. apply filter_In in Ht. destruct Ht as (Ht & O). rewrite (F t Ht O).
      cbn [named_schema with_tables sc_tables] in Ht. apply in_map_iff in Ht. destruct Ht as (t0 & <- & Ht).
      destruct (N s t0 Hs Ht) as (N1 & N3). unfold named_table in *. destruct (is_virtual t0) eqn:V.
      { unfold ordinary in O. rewrite V, orb_true_r in O. discriminate. }
      apply sqlite_alters_self; [exact N1|exact N3|]. cbn [with_constraints tb_constraints].
      intros a b Ha Hb. apply in_map_iff in Ha. destruct Ha as (a0 & <- & Ha). apply in_map_iff in Hb. destruct Hb as (b0 & <- & Hb).
      rewrite !compared_name_ok, !named_ignore. destruct (K s t0 a0 b0) as (K1 & K2); try assumption.
      { intro Z. apply is_virtual_spec in Z. congruence. }
      split; [|exact K2]. apply compared_name_nonempty. exact K1. }
    rewrite A. reflexivity.
Qed.
