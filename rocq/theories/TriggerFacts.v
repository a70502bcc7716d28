(** Migrations of SQLite databases keep the triggers. *)
From Coq Require Import Lia Permutation.
From Verif Require Import GoStr GoStrFacts ModelCatalog ModelDdl ModelDiff ModelDiffSql SpecDiff DiffLookup DiffFacts DiffSqlite SpecRebuild RebuildFacts ModelTriggers SpecTriggers.

(** ** Texts and names *)
Lemma unix_same : forall s, no_crlf s -> unix_lines s = s.
Proof.
  induction s as [|c s IH]; intro H; [reflexivity|]. cbn [unix_lines]. destruct s as [|d s]; [reflexivity|].
  destruct (ceqb c CR && ceqb d LF) eqn:E.
  - apply andb_true_iff in E. destruct E as (E1 & E2). apply ceqb_eq in E1. apply ceqb_eq in E2. subst. exfalso. exact (H [] s eq_refl).
  - f_equal. apply IH. intros a b Eq. apply (H (c :: a) b). rewrite Eq. reflexivity.
Qed.
Lemma add_trigger_new : forall l t, In t (add_trigger l t).
Proof. intros l t. induction l as [|u l IH]; cbn; [left; reflexivity|]. destruct (beqb (tg_name u) (tg_name t)); [left; reflexivity|right; exact IH]. Qed.
Lemma add_trigger_old : forall l t u, In u l -> tg_name u <> tg_name t -> In u (add_trigger l t).
Proof.
  intros l t u. induction l as [|v l IH]; cbn; intros H N; [contradiction|]. destruct H as [->|H].
  - destruct (beqb_spec (tg_name u) (tg_name t)); [contradiction|left; reflexivity].
  - destruct (beqb_spec (tg_name v) (tg_name t)); right; [exact H|exact (IH H N)].
Qed.
Lemma attach_in : forall tables l t, NoDup (map tg_name l) -> In t l -> In (tg_table t) tables -> In t (attach tables l (tg_table t)).
Proof.
  intros tables l t N H T. unfold attach.
  assert (G : forall l m, NoDup (map tg_name l) -> (In t l \/ (In t (m (tg_table t)) /\ ~ In (tg_name t) (map tg_name l))) ->
    In t (fold_left (fun m t => if bmem (tg_table t) tables then fun n => if beqb n (tg_table t) then add_trigger (m n) t else m n else m) l m (tg_table t))).
  { clear N H. intro k. induction k as [|u k IH]; intros m N H; cbn [fold_left].
    - destruct H as [[]|(H & _)]. exact H.
    - cbn in N. inversion N as [|? ? N1 N2]; subst. apply IH; [exact N2|]. destruct H as [[->|H]|(H & Q)].
      + right. split; [|exact N1]. apply bmem_In in T. rewrite T, beqb_refl. apply add_trigger_new.
      + left. exact H.
      + right. cbn in Q. split; [|intro Z; apply Q; right; exact Z]. destruct (bmem (tg_table u) tables); [|exact H].
        destruct (beqb (tg_table t) (tg_table u)); [|exact H]. apply add_trigger_old; [exact H|]. intro Z. apply Q. left. symmetry. exact Z. }
  apply G; [exact N|left; exact H].
Qed.

(** ** Statements *)
Lemma trun_app : forall e l1 l2 db db', trun e (l1 ++ l2) db = Some db' -> exists m, trun e l1 db = Some m /\ trun e l2 m = Some db'.
Proof.
  intros e l1. induction l1 as [|s l1 IH]; intros l2 db db' H; cbn [trun app] in *.
  - exists db. auto.
  - destruct (te_refuses e db s); [discriminate|]. destruct (teffect e db s); [|discriminate]. exact (IH _ _ _ H).
Qed.
Lemma trun_step : forall e s l db db', trun e (s :: l) db = Some db' -> exists m, teffect e db s = Some m /\ trun e l m = Some db'.
Proof.
  intros e s l db db' H. cbn [trun] in H. destruct (te_refuses e db s); [discriminate|]. destruct (teffect e db s) as [m|]; [|discriminate].
  exists m. auto.
Qed.
(** The statement leaves the table alone. *)
Definition leaves (t : bytes) (s : tstmt) : Prop :=
  match s with TStmt (QDropTable q) | TStmt (QRename q _) => snd q <> t | _ => True end.
Lemma effect_table : forall e db s db' t, teffect e db s = Some db' -> leaves t s -> In t (td_tables db) -> In t (td_tables db').
Proof.
  intros e db s db' t H L T. destruct s as [s|sql].
  - destruct s; cbn in H, L; try (injection H as <-; exact T); try discriminate.
    + destruct (bmem _ _); [|discriminate]. injection H as <-. cbn. apply filter_In. split; [exact T|].
      destruct (beqb_spec t (snd t0)); [congruence|reflexivity].
    + destruct (bmem _ _); [discriminate|]. injection H as <-. cbn. apply in_app_iff. left. exact T.
    + destruct (_ && _); [|discriminate]. injection H as <-. cbn. apply in_map_iff. exists t. split; [|exact T].
      destruct (beqb_spec t (snd t0)); [congruence|reflexivity].
  - cbn in H. destruct (te_parse e sql) as [[n u]|]; [|discriminate]. destruct (_ && _); [|discriminate]. injection H as <-. exact T.
Qed.
Lemma effect_trigger : forall e db s db' g, teffect e db s = Some db' -> leaves (dt_table g) s -> In g (td_triggers db) -> In g (td_triggers db').
Proof.
  intros e db s db' g H L T. destruct s as [s|sql].
  - destruct s; cbn in H, L; try (injection H as <-; exact T); try discriminate.
    + destruct (bmem _ _); [|discriminate]. injection H as <-. cbn. apply filter_In. split; [exact T|].
      destruct (beqb_spec (dt_table g) (snd t)); [congruence|reflexivity].
    + destruct (bmem _ _); [discriminate|]. injection H as <-. exact T.
    + destruct (_ && _); [|discriminate]. injection H as <-. cbn. apply in_map_iff. exists g. split; [|exact T].
      destruct (beqb_spec (dt_table g) (snd t)); [congruence|reflexivity].
  - cbn in H. destruct (te_parse e sql) as [[n u]|]; [|discriminate]. destruct (_ && _); [|discriminate]. injection H as <-. cbn. apply in_app_iff. left. exact T.
Qed.
(** The trigger and its table are there. *)
Definition present (g : dtrigger) (db : tdb) : Prop := In g (td_triggers db) /\ In (dt_table g) (td_tables db).
Lemma run_leaves : forall e l db db' g, trun e l db = Some db' -> (forall s, In s l -> leaves (dt_table g) s) -> present g db -> present g db'.
Proof.
  intros e l. induction l as [|s l IH]; intros db db' g H L (P1 & P2).
  - cbn in H. injection H as <-. split; assumption.
  - apply trun_step in H. destruct H as (m & E & H). apply (IH m db' g H); [intros; apply L; right; assumption|].
    pose proof (L s (or_introl eq_refl)) as Ls. split; [exact (effect_trigger _ _ _ _ _ E Ls P1)|exact (effect_table _ _ _ _ _ E Ls P2)].
Qed.
(** Triggers that are created again. *)
Lemma run_triggers : forall e (l : list bytes) db db' g, trun e (map TTrigger l) db = Some db' -> In (dt_table g) (td_tables db) ->
  te_parse e (dt_sql g ++ B";") = Some (dt_name g, dt_table g) -> In (dt_sql g ++ B";") l -> present g db'.
Proof.
  intros e l. induction l as [|x l IH]; intros db db' g H T P I; [contradiction|]. cbn [map] in H. apply trun_step in H. destruct H as (m & E & H).
  destruct I as [->|I].
  - apply (run_leaves e (map TTrigger l) m db' g H); [intros s Hs; apply in_map_iff in Hs; destruct Hs as (y & <- & _); exact Logic.I|].
    cbn [teffect] in E. rewrite P in E. destruct (_ && _); [|discriminate]. injection E as <-. split; [|exact T]. cbn. apply in_app_iff. right. left.
    rewrite trim_suffix_app. destruct g; reflexivity.
  - apply (IH m db' g H); [|exact P|exact I]. exact (effect_table _ _ _ _ (dt_table g) E Logic.I T).
Qed.

(** ** One table *)
Lemma run_copy_other : forall e st dt s d db db' g, trun e (copy_tstmts st dt s d) db = Some db' -> tb_name d <> dt_table g ->
  present g db -> present g db'.
Proof.
  intros e st dt s d db db' g H N P. unfold copy_tstmts, copy_stmts in H. cbn zeta in H.
  assert (N' : tb_name d ++ B"_new" <> dt_table g).
  { intro Z. rewrite <- app_assoc in H || idtac. cbn [map app] in H. apply trun_step in H. destruct H as (m & E & _). cbn [teffect bare snd] in E.
    rewrite Z in E. destruct P as (_ & P). apply bmem_In in P. rewrite P in E. discriminate. }
  apply (run_leaves _ _ _ _ g H); [|exact P]. intros x Hx. apply in_app_iff in Hx. destruct Hx as [Hx|Hx].
  - cbn [map app In] in Hx. destruct Hx as [<-|[<-|[<-|[<-|Hx]]]]; try exact Logic.I; try exact N; try exact N'.
    rewrite map_map in Hx. apply in_map_iff in Hx. destruct Hx as (i & <- & _). exact Logic.I.
  - apply in_map_iff in Hx. destruct Hx as (i & <- & _). exact Logic.I.
Qed.
Lemma run_copy_own : forall e st dt s d db db' g, trun e (copy_tstmts st dt s d) db = Some db' -> tb_name d = dt_table g ->
  te_parse e (dt_sql g ++ B";") = Some (dt_name g, dt_table g) ->
  In (dt_sql g ++ B";") (map tg_sql (match dt with [] => st | _ => dt end)) -> present g db -> present g db'.
Proof.
  intros e st dt s d db db' g H N P I (_ & T). unfold copy_tstmts in H. apply trun_app in H. destruct H as (m & H1 & H2).
  rewrite <- map_map in H2. refine (run_triggers e _ m db' g H2 _ P I). clear H2 I.
  unfold copy_stmts in H1. cbn zeta in H1. rewrite map_app in H1. apply trun_app in H1. destruct H1 as (m1 & H1 & H2). cbn [map] in H1.
  apply trun_step in H1. destruct H1 as (a1 & E1 & H1). apply trun_step in H1. destruct H1 as (a2 & E2 & H1).
  apply trun_step in H1. destruct H1 as (a3 & E3 & H1). apply trun_step in H1. destruct H1 as (a4 & E4 & H1). cbn in H1. injection H1 as <-.
  assert (T4 : In (dt_table g) (td_tables a4)).
  { cbn [teffect bare snd] in E4. destruct (_ && _) eqn:E; [|discriminate]. injection E4 as <-. cbn. apply andb_true_iff in E. destruct E as (E & _).
    apply bmem_In in E. apply in_map_iff. exists (tb_name d ++ B"_new"). split; [|exact E]. rewrite beqb_refl. exact N. }
  revert H2 T4. generalize a4. clear. induction (tb_indexes d) as [|i l IH]; intros a4 H2 T4; cbn [map] in H2.
  - cbn in H2. injection H2 as <-. exact T4.
  - apply trun_step in H2. destruct H2 as (m' & E & H2). cbn in E. injection E as <-. exact (IH _ H2 T4).
Qed.

(** ** The whole migration *)
Lemma leaves_plain : forall t s, match s with QDropTable _ | QRename _ _ => False | _ => True end -> leaves t (TStmt s).
Proof. intros t s H. destruct s; try exact Logic.I; contradiction. Qed.
Lemma run_all_alters : forall e st dt (p : sqlite_plan) alters db db' g, (forall a b, In (a, b) alters -> In a (sp_alters p)) ->
  te_parse e (dt_sql g ++ B";") = Some (dt_name g, dt_table g) ->
  (forall a, In a (sp_alters p) -> tb_name (sa_dest a) = dt_table g ->
     In (dt_sql g ++ B";") (map tg_sql (match dt (tb_name (sa_dest a)) with [] => st (tb_name (sa_src a)) | _ => dt (tb_name (sa_dest a)) end))) ->
  trun e (flat_map (fun '(a, b) => if (b : bool) then copy_tstmts (st (tb_name (sa_src a))) (dt (tb_name (sa_dest a))) (sa_src a) (sa_dest a)
                                  else map TStmt (alter_stmts_sqlite a false)) alters) db = Some db' -> present g db -> present g db'.
Proof.
  intros e st dt p alters. induction alters as [|[a b] alters IH]; intros db db' g A' P A H Pr; cbn [flat_map] in H.
  - cbn in H. injection H as <-. exact Pr.
  - apply trun_app in H. destruct H as (m & H1 & H2). refine (IH m db' g _ P A H2 _); [intros x y Hxy; exact (A' x y (or_intror Hxy))|].
    destruct b.
    + pose proof (A a (A' a true (or_introl eq_refl))) as I. destruct (beqb_spec (tb_name (sa_dest a)) (dt_table g)) as [E|E].
      * refine (run_copy_own _ _ _ _ _ _ _ _ H1 E P _ Pr). exact (I E).
      * exact (run_copy_other _ _ _ _ _ _ _ _ H1 E Pr).
    + apply (run_leaves _ _ _ _ _ H1); [|exact Pr]. intros s Hs. apply in_map_iff in Hs. destruct Hs as (q & <- & Hs). apply leaves_plain.
      unfold alter_stmts_sqlite in Hs. rewrite !in_app_iff in Hs.
      destruct Hs as [Hs|[Hs|[Hs|Hs]]]; apply in_map_iff in Hs; destruct Hs as (i & <- & _); exact Logic.I.
Qed.
Theorem plan_triggers : forall e st dt p l db db' g, sqlite_tstmts st dt p = Ok l -> trun e l db = Some db' -> present g db ->
  te_parse e (dt_sql g ++ B";") = Some (dt_name g, dt_table g) ->
  (forall t, In t (sp_drop_tables p) -> tb_name t <> dt_table g) ->
  (forall a, In a (sp_alters p) -> tb_name (sa_dest a) = dt_table g ->
     In (dt_sql g ++ B";") (map tg_sql (match dt (tb_name (sa_dest a)) with [] => st (tb_name (sa_src a)) | _ => dt (tb_name (sa_dest a)) end))) ->
  present g db'.
Proof.
  intros e st dt p l db db' g L H Pr P D A. unfold sqlite_tstmts in L.
  destruct (flatr _ (sp_alters p)) as [alters| |] eqn:FA; try discriminate. cbn [bindr] in L. apply pair_alters in FA. destruct FA as (A1 & _).
  injection L as L. rewrite <- L in H.
  apply trun_app in H. destruct H as (m0 & H0 & H). apply trun_app in H. destruct H as (m1 & H1 & H). apply trun_app in H. destruct H as (m2 & H2 & H).
  apply trun_app in H. destruct H as (m3 & H3 & H).
  apply (run_leaves _ _ _ _ _ H).
  { intros s Hs. destruct (existsb snd alters); [destruct Hs as [<-|[]]; exact Logic.I|contradiction]. }
  assert (P2 : present g m2).
  { apply (run_leaves _ _ _ _ _ H2).
    - intros s Hs. apply in_map_iff in Hs. destruct Hs as (q & <- & Hs). apply leaves_plain. apply in_flat_map in Hs. destruct Hs as (t & _ & [<-|Hs]); [exact Logic.I|].
      apply in_map_iff in Hs. destruct Hs as (i & <- & _). exact Logic.I.
    - apply (run_leaves _ _ _ _ _ H1).
      + intros s Hs. apply in_map_iff in Hs. destruct Hs as (q & <- & Hs). apply in_map_iff in Hs. destruct Hs as (t & <- & Ht). exact (D t Ht).
      + apply (run_leaves _ _ _ _ _ H0); [|exact Pr]. intros s Hs. destruct (existsb snd alters); [destruct Hs as [<-|[]]; exact Logic.I|contradiction]. }
  assert (A' : forall a b, In (a, b) alters -> In a (sp_alters p)) by (intros a b Hab; rewrite <- A1; exact (in_map fst _ _ Hab)).
  exact (run_all_alters e st dt p alters m2 m3 g A' P A H3 P2).
Qed.

Lemma plan_alters : forall src dest drop p a, unique_tables (ct_schemas src) -> unique_tables (ct_schemas dest) ->
  new_sqlite_migration src dest drop = Ok p -> In a (sp_alters p) ->
  tb_name (sa_src a) = tb_name (sa_dest a) /\ exists u, In u (the_schema src) /\ tb_ignore u = false /\ tb_name u = tb_name (sa_src a).
Proof.
  intros src dest drop p a Us Ud P Ha. destruct (ct_schemas src) as [|s ss] eqn:Es, (ct_schemas dest) as [|d ds] eqn:Ed.
  1-3: unfold new_sqlite_migration in P; rewrite Es, Ed in P; injection P as <-; contradiction.
  rewrite <- Es in Us. rewrite <- Ed in Ud. rewrite (sqlite_plan_ok src dest drop s ss d ds Es Ed Us Ud) in P. injection P as <-.
  cbn [sp_alters] in Ha. apply in_flat_map in Ha. destruct Ha as (t & _ & Ha). rewrite (find_the src s ss _ Es Us) in Ha.
  destruct (the_table src (tb_name t)) as [u|] eqn:F; [|contradiction]. cbn [option_map] in Ha. apply alters_shape in Ha. destruct Ha as (-> & -> & _).
  unfold the_table in F. apply find_some in F. destruct F as (Hu & E). apply andb_true_iff in E. destruct E as (E & I).
  destruct (beqb_spec (tb_name u) (tb_name t)) as [E'|]; [|discriminate]. apply negb_true_iff in I. rewrite named_table_name. split; [exact E'|].
  exists u. auto.
Qed.
Lemma schema_tables : forall c, (match ct_schemas c with [] => [] | s :: _ => map tb_name (filter (fun t => negb (tb_ignore t)) (sc_tables s)) end)
  = map tb_name (filter (fun t => negb (tb_ignore t)) (the_schema c)).
Proof. intro c. unfold the_schema. destruct (ct_schemas c); reflexivity. Qed.
Lemma first_unique : forall c, unique_tables (ct_schemas c) -> NoDup (map tb_name (the_schema c)).
Proof.
  intros c (_ & U). unfold the_schema. destruct (ct_schemas c) as [|s ss]; [constructor|]. exact (proj1 (U s (or_introl eq_refl))).
Qed.

Theorem migration_triggers : forall e rows dt src dest drop l db db', unique_tables (ct_schemas src) -> sqlite_names (ct_schemas dest) ->
  tdb_ok e db -> answers db rows false ->
  (forall g, In g (td_triggers db) -> dt (dt_table g) = [] -> no_crlf (dt_sql g)) ->
  generate_with_triggers rows false dt src dest drop = Ok l -> trun e l db = Some db' -> triggers_stay drop dest dt db db'.
Proof.
  intros e rows dt src dest drop l db db' Us Ud (_ & Nn & Ok0) (all & Pm & ->) NC R H g Hg (St & W). unfold generate_with_triggers in R. cbn [get_triggers bindr] in R.
  destruct (new_sqlite_migration src dest drop) as [p| |] eqn:P; try discriminate. cbn [bindr] in R. rewrite schema_tables in R.
  destruct (Ok0 g Hg) as (Tg & Pg).
  refine (proj1 (plan_triggers _ _ _ _ _ _ _ g R H (conj Hg Tg) Pg _ _)).
  - destruct (plan_ok src dest drop (rows_of src (fun _ => [])) p Us Ud (rows_agree src _ (first_unique src Us)) P) as (P1 & _).
    intros t Ht E. apply (P1 t Ht). rewrite E. exact St.
  - intros a Ha E. destruct (plan_alters _ _ _ _ _ Us (proj1 Ud) P Ha) as (En & u & Hu & Iu & Nu). rewrite E in *.
    destruct (dt (dt_table g)) as [|x r] eqn:D; [|destruct W as [W|W]; [discriminate|exact W]]. clear W.
    rewrite En. set (tg := Trigger (dt_table g) (dt_name g) (dt_sql g ++ B";")).
    apply (in_map tg_sql _ tg). 
    assert (U : unix_lines (dt_sql g ++ B";") = dt_sql g ++ B";").
    { apply unix_same. intros b c Z. pose proof (NC g Hg D) as K.
      destruct c as [|c0 c] using rev_ind.
      - change (b ++ [CR; LF]) with (b ++ [CR] ++ [LF]) in Z. rewrite app_assoc in Z. apply app_inj_tail in Z. destruct Z as (_ & Z). discriminate.
      - change (b ++ CR :: LF :: c ++ [c0]) with (b ++ (CR :: LF :: c) ++ [c0]) in Z. rewrite app_assoc in Z. apply app_inj_tail in Z. destruct Z as (Z & _).
        exact (K b c Z). }
    assert (In tg (map (fun '(t, n, s) => Trigger t n (unix_lines s)) rows)).
    { apply in_map_iff. exists (dt_table g, dt_name g, dt_sql g ++ B";"). split; [rewrite U; reflexivity|].
      apply (Permutation_in _ (Permutation_sym Pm)). apply (in_map (fun g => (dt_table g, dt_name g, dt_sql g ++ B";"))). exact Hg. }
    apply (attach_in _ _ tg); [|assumption|].
    + rewrite map_map. erewrite map_ext with (g := fun x : bytes * bytes * bytes => snd (fst x)); [|intros [[? ?] ?]; reflexivity].
      apply (Permutation_NoDup (l := map dt_name (td_triggers db))); [|exact Nn].
      apply Permutation_sym. eapply Permutation_trans; [exact (Permutation_map _ Pm)|]. rewrite map_map. cbn. apply Permutation_refl.
    + cbn. apply in_map_iff. exists u. split; [congruence|]. apply filter_In. split; [exact Hu|]. rewrite Iu. reflexivity.
Qed.
