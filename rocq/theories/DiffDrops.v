(** Without DropObjects nothing is dropped, C36. *)
From Coq Require Import Lia Permutation.
From Verif Require Import GoStr GoStrFacts ModelCatalog ModelCache CacheFacts ModelDdl ModelDiff ModelDiffSql SpecDiff DiffLookup DiffFacts DiffSelf DiffSqlite DiffPlan DiffSegments.

Definition quiet (d : dialect) (c : change) : Prop :=
  match c with
  | ChDropSchema _ | ChDropTable _ | ChDropFkey _ => False
  | ChAlterTable a =>
      al_drop_columns a = [] /\ (d = Postgres -> al_drop_indexes a = [])
      /\ forall x, In x (al_drop_indexes a) -> In x (al_create_indexes a)
  | _ => True
  end.

Lemma recorded_in : forall a c, In c (recorded a) -> c = ChAlterTable a.
Proof. intros a c H. unfold recorded in H. destruct (_ && _) in H; [contradiction|]. destruct H as [H|[]]. auto. Qed.
Lemma when_false : forall {A} (r : result (list A)) x, when false r = Ok x -> x = [].
Proof. intros A r x H. injection H as <-. reflexivity. Qed.

Lemma quiet_alter : forall d cat sc dc s t l c, code_alter d cat false sc dc s t = Ok l -> In c l -> quiet d c.
Proof.
  intros d cat sc dc s t l c H Hc. destruct d; cbn [code_alter] in H.
  all: try (unfold alter_mysql in H); try (unfold alter_postgres in H); try (unfold alter_sqlserver in H).
  all: invert_binds H.
  all: repeat match goal with E : when false _ = Ok ?x |- _ => apply when_false in E; subst x end.
  all: injection H as <-.
  all: cbn [map filter app] in Hc.
  all: repeat (apply in_app_or in Hc; destruct Hc as [Hc|Hc]).
  all: try (apply in_map_iff in Hc; destruct Hc as (y & <- & _); exact I).
  all: apply recorded_in in Hc; subst c; cbn; split; try reflexivity.
  all: split; [try reflexivity; discriminate|].
  all: intros y Hy; try contradiction; apply in_or_app; right; exact Hy.
Qed.

Lemma quiet_changes : forall d src dest l, changes (code_alter d) src dest false = Ok l -> forall c, In c l -> quiet d c.
Proof.
  intros d src dest l H c Hc. unfold changes in H. cbn [when bindr] in H. invert_binds H. injection H as <-. cbn [app] in Hc.
  apply (flatr_inv _ _ _ E) in Hc. destruct Hc as (ds & y & Hds & F & Hc). unfold change_schema in F.
  assert (C : forall dest t z, create_table dest t = Ok z -> In c z -> quiet d c).
  { intros dst t z Z Hz. unfold create_table, keys_of in Z. invert_binds Z. injection Z as <-. invert_binds E0. injection E0 as <-.
    destruct Hz as [<-|Hz]; [exact I|]. apply in_map_iff in Hz. destruct Hz as (k & <- & _). exact I. }
  destruct (sc_ignore ds); [injection F as <-; contradiction|]. invert_binds F. destruct x0 as [ss|].
  - cbn [when] in F. invert_binds F. injection F as <-. injection E1 as <-. cbn [app] in Hc.
    apply (flatr_inv _ _ _ E2) in Hc. destruct Hc as (t & z & Ht & G & Hc). unfold change_table in G.
    destruct (tb_ignore t); [injection G as <-; contradiction|]. invert_binds G. destruct x0 as [s|].
    + eapply quiet_alter; eassumption.
    + eapply C; eassumption.
  - invert_binds F. injection F as <-. apply in_app_or in Hc. destruct Hc as [Hc|Hc].
    + destruct (is_empty (sc_name ds)); [contradiction|]. destruct Hc as [<-|[]]. exact I.
    + apply (flatr_inv _ _ _ E1) in Hc. destruct Hc as (t & z & Ht & G & Hc).
      destruct (tb_ignore t); [injection G as <-; contradiction|]. eapply C; eassumption.
Qed.

Ltac split_in H :=
  match type of H with
  | In _ (_ ++ _) => apply in_app_or in H; destruct H as [H|H]; [|split_in H]
  | _ => idtac
  end.

(** ** Positions *)
Lemma split_app : forall {A} (pre : list A) s post x y, pre ++ s :: post = x ++ y ->
  (exists m, x = pre ++ s :: m /\ post = m ++ y) \/ (exists m, pre = x ++ m /\ y = m ++ s :: post).
Proof.
  intros A pre s post x. revert pre. induction x as [|a x IH]; intros pre y H.
  - right. exists pre. auto.
  - destruct pre as [|b pre]; cbn in H; injection H as -> H.
    + left. exists x. auto.
    + destruct (IH _ _ H) as [(m & -> & ->)|(m & -> & ->)]; [left|right]; exists m; auto.
Qed.
Lemma in_split_app : forall {A} (pre : list A) s post x y, pre ++ s :: post = x ++ y -> ~ In s y ->
  exists m, x = pre ++ s :: m /\ post = m ++ y.
Proof.
  intros A pre s post x y H N. destruct (split_app _ _ _ _ _ H) as [E|(m & _ & ->)]; [exact E|].
  exfalso. apply N. apply in_elt.
Qed.
Lemma flatr_split : forall {A C} (f : A -> result (list C)) l r, flatr f l = Ok r -> forall pre s post, r = pre ++ s :: post ->
  exists a x u v w, In a l /\ f a = Ok x /\ x = u ++ s :: v /\ post = v ++ w.
Proof.
  intros A C f l. induction l as [|a l IH]; intros r H pre s post E.
  - injection H as <-. destruct pre; discriminate.
  - cbn [flatr] in H. invert_binds H. injection H as <-.
    symmetry in E. destruct (split_app _ _ _ _ _ E) as [(m & -> & ->)|(m & -> & E')].
    + exists a, (pre ++ s :: m), pre, m, x0. cbn. auto.
    + destruct (IH _ E1 _ _ _ E') as (b & y & u & v & w & Hb & F & -> & ->). exists b, (u ++ s :: v), u, v, w. cbn. auto.
Qed.

Definition is_drop (s : stmt) : bool :=
  match s with QDropIndex _ _ | QDropConstraint _ _ | QDropColumn _ _ => true | _ => false end.
(** What follows a statement of an altered table that drops something. *)
Lemma after_drop : forall d flt cat a l pre s post, sql_dialect d = true -> alter_code d flt cat a = Ok l ->
  l = pre ++ s :: post -> is_drop s = true ->
  In s (alter_first d cat a)
  /\ (forall x, In x (al_create_indexes a) -> exists b, In (QCreateIndex (created_at d cat a x) x b) post)
  /\ (forall c u, In c (al_add_constraints a) -> In u (adds_keys d cat a c) -> In u post).
Proof.
  intros d flt cat a l pre s post Q H E D. destruct (alter_code_ok _ _ _ _ _ Q H) as (mid & L & M). clear H. subst l.
  match type of L with _ = ?X ++ ?Y => set (rest := Y) in *; assert (N : ~ In s rest) end.
  { intro Hs. subst rest. repeat (apply in_app_or in Hs; destruct Hs as [Hs|Hs]).
    - apply in_map_iff in Hs. destruct Hs as (y & <- & _). discriminate.
    - destruct (M s Hs) as [Z|[(t & c & ->)|[(t & c & ->)|[(t & c & ->)|(t & c & ->)]]]]; try discriminate.
      destruct s; discriminate.
    - apply in_map_iff in Hs. destruct Hs as (y & <- & _). discriminate.
    - apply in_flat_map in Hs. destruct Hs as (y & _ & Hs). destruct d; cbn in Hs.
      all: repeat (destruct Hs as [<-|Hs]; [discriminate|]); contradiction. }
  destruct (in_split_app _ _ _ _ _ L N) as (m & E1 & ->). split; [|split].
  - rewrite E1. apply in_elt.
  - intros x Hx. eexists. apply in_or_app. right. subst rest. apply in_or_app. right. apply in_or_app. right.
    apply in_or_app. left. apply in_map_iff. exists x. split; [reflexivity|exact Hx].
  - intros c u Hc Hu. apply in_or_app. right. subst rest. do 3 (apply in_or_app; right). apply in_flat_map. exists c. auto.
Qed.

(** ** Nothing is destroyed *)
Definition destroyed : stmt -> bool := destroys.
Lemma alter_safe : forall d flt cat a l s, sql_dialect d = true -> alter_code d flt cat a = Ok l -> al_drop_columns a = [] ->
  In s l -> destroys s = false.
Proof.
  intros d flt cat a l s Q H D Hs. destruct (alter_code_ok _ _ _ _ _ Q H) as (mid & -> & M).
  split_in Hs.
  - unfold alter_first in Hs. rewrite D in Hs.
    assert (Z : In s (map (fun x => QDropIndex (dropped_at d cat a x) (ix_name x)) (al_drop_indexes a))
                \/ In s (map (QDropConstraint (alter_at cat a)) (al_drop_constraints a))).
    { cbn [map] in Hs. rewrite app_nil_r in Hs. destruct d; try discriminate Q; apply in_app_or in Hs; tauto. }
    destruct Z as [Z|Z]; apply in_map_iff in Z; destruct Z as (y & <- & _); reflexivity.
  - apply in_map_iff in Hs. destruct Hs as (y & <- & _). reflexivity.
  - destruct (M s Hs) as [Z|[(t & c & ->)|[(t & c & ->)|[(t & c & ->)|(t & c & ->)]]]]; try reflexivity.
    destruct s; try discriminate Z; reflexivity.
  - apply in_map_iff in Hs. destruct Hs as (y & <- & _). reflexivity.
  - apply in_flat_map in Hs. destruct Hs as (y & _ & Hs). destruct d; try discriminate Q; cbn in Hs.
    all: repeat (destruct Hs as [<-|Hs]; [reflexivity|]); contradiction.
Qed.

Lemma ch_lists_nil : forall {C} d (f : change -> list C) l, (forall c, In c l -> quiet d c) -> (forall c, quiet d c -> f c = []) ->
  flat_map f l = [].
Proof.
  intros C d f l Q F. induction l as [|c l IH]; [reflexivity|]. cbn. rewrite (F c), IH; [reflexivity| |]; intros; apply Q; cbn; auto.
Qed.

Lemma create_with_indexes_in : forall cur l s, In s (flat_map (create_with_indexes cur) l) ->
  (exists t, In t l /\ s = QCreateTable (at_table cur t) t) \/ exists q x b, s = QCreateIndex q x b.
Proof.
  intros cur l s Hs. apply in_flat_map in Hs. destruct Hs as (t & Ht & [<-|Hs]); [left; exists t; auto|].
  apply in_map_iff in Hs. destruct Hs as (x & <- & _). eauto 6.
Qed.
Lemma drops_part_in : forall d cur p s, In s (drops_part d cur p) -> exists t c, s = QDropConstraint t c /\ In c (keys (pl_drop_fkeys p)).
Proof.
  intros d cur p s H. apply in_flat_map in H. destruct H as (l & Hl & H).
  assert (Z : exists t c, s = QDropConstraint t c /\ In c l).
  { destruct d; cbn in H; apply in_map_iff in H; destruct H as (c & <- & Hc); eauto. }
  destruct Z as (t & c & -> & Hc). exists t, c. split; [reflexivity|]. apply in_concat. eauto.
Qed.
Lemma adds_part_in : forall d cur p s, In s (adds_part d cur p) ->
  (exists t c b, s = QAddConstraint t c b) \/ exists t n, s = QValidate t n.
Proof.
  intros d cur p s H. apply in_app_or in H. destruct H as [H|H]; apply in_flat_map in H; destruct H as (l & Hl & H).
  - destruct d; cbn in H; try contradiction; apply in_map_iff in H; destruct H as (c & <- & Hc); eauto 6.
  - destruct d; cbn [add_key_stmts] in H.
    2: apply in_app_or in H; destruct H as [H|H].
    all: apply in_map_iff in H; destruct H as (c & <- & Hc); eauto 6.
Qed.

Theorem nothing_destroyed_sql : forall d flt prefix src dest files ws, sql_dialect d = true ->
  results d flt prefix src dest false = Ok (files, ws) -> forall s, In s (forward files) -> destroys s = false.
Proof.
  intros d flt prefix src dest files ws Q H s Hs.
  destruct (segments _ _ _ _ _ _ _ _ Q H) as (l & p & alts & C & R & A & F). rewrite F in Hs. clear F H.
  pose proof (quiet_changes _ _ _ _ C) as QC. destruct (record_lists _ _ _ _ R) as (L1 & L2 & L3 & L4 & L5 & L6).
  cbn [empty_plan pl_drop_schemas pl_create_schemas pl_drop_tables pl_create_tables pl_alters app] in *.
  assert (D1 : pl_drop_schemas p = []).
  { rewrite L1. apply (ch_lists_nil d); [exact QC|]. intros [] Z; try reflexivity. contradiction. }
  assert (D2 : pl_drop_tables p = []).
  { rewrite L3. apply (ch_lists_nil d); [exact QC|]. intros [] Z; try reflexivity. contradiction. }
  split_in Hs.
  - apply drops_part_in in Hs. destruct Hs as (t & c & -> & _). reflexivity.
  - unfold schema_stmts in Hs. rewrite D1 in Hs. cbn [flat_map map] in Hs.
    assert (Z : In s (map QCreateSchema (pl_create_schemas p))) by (destruct d; exact Hs).
    apply in_map_iff in Z. destruct Z as (n & <- & _). reflexivity.
  - unfold table_stmts in Hs. rewrite D2 in Hs. cbn [map app] in Hs. apply create_with_indexes_in in Hs.
    destruct Hs as [(t & _ & ->)|(q & x & b & ->)]; reflexivity.
  - apply (flatr_inv _ _ _ A) in Hs. destruct Hs as (a & x & Ha & E & Hs). eapply alter_safe; try eassumption.
    rewrite L5 in Ha. apply in_flat_map in Ha. destruct Ha as (c & Hc & Ha). specialize (QC c Hc).
    destruct c; try contradiction Ha. destruct Ha as [<-|[]]. apply QC.
  - apply adds_part_in in Hs. destruct Hs as [(t & c & b & ->)|(t & n & ->)]; reflexivity.
Qed.

Lemma alter_sqlite_quiet : forall sc dc s d l a, alter_sqlite false sc dc s d = Ok l -> In a l ->
  sa_drop_indexes a = [] /\ sa_drop_constraints a = [] /\ sa_drop_columns a = [] /\ sa_alter_columns a = [] /\ sa_add_constraints a = [].
Proof.
  intros sc dc s d l a H Ha. unfold alter_sqlite in H. invert_binds H. injection H as <-.
  destruct (_ && _ && _ && _ && _ && _) in Ha; [contradiction|]. destruct (_ && _) in Ha; [contradiction|].
  destruct Ha as [<-|[]]. cbn. auto 6.
Qed.
Lemma sqlite_plan_quiet : forall src dest p, new_sqlite_migration src dest false = Ok p ->
  sp_drop_tables p = [] /\ forall a, In a (sp_alters p) ->
  sa_drop_indexes a = [] /\ sa_drop_constraints a = [] /\ sa_drop_columns a = [] /\ sa_alter_columns a = [] /\ sa_add_constraints a = [].
Proof.
  intros src dest p H. unfold new_sqlite_migration in H.
  destruct (ct_schemas src) as [|s0 ss], (ct_schemas dest) as [|d0 ds]; try (injection H as <-; cbn; split; [reflexivity|contradiction]).
  cbn [map when bindr] in H. invert_binds H. injection H as <-. cbn [sp_drop_tables sp_alters]. split; [reflexivity|].
  intros a Ha. apply (flatr_inv _ _ _ E0) in Ha. destruct Ha as (t & y & Ht & F & Ha).
  destruct (_ || _) in F; [injection F as <-; contradiction|]. invert_binds F. destruct x1 as [u|]; [|injection F as <-; contradiction].
  eapply alter_sqlite_quiet; eassumption.
Qed.
Lemma copied_quiet : forall a b, sa_drop_constraints a = [] -> sa_alter_columns a = [] -> sa_add_constraints a = [] ->
  copied a = Ok b -> b = false.
Proof.
  intros a b D A C H. unfold copied in H. rewrite D, A, C in H. cbn in H. injection H as <-. reflexivity.
Qed.
Lemma sqlite_stmts_quiet : forall src dest p l, new_sqlite_migration src dest false = Ok p -> sqlite_stmts p = Ok l ->
  forall s, In s l -> (exists q t, s = QCreateTable q t) \/ (exists q x b, s = QCreateIndex q x b) \/ (exists q c, s = QAddColumn q c).
Proof.
  intros src dest p l P H s Hs. destruct (sqlite_plan_quiet _ _ _ P) as (D & A). unfold sqlite_stmts in H. invert_binds H.
  assert (X : forall a b, In (a, b) x -> In a (sp_alters p) /\ b = false).
  { intros a b Hab. apply (flatr_inv _ _ _ E) in Hab. destruct Hab as (a' & y & Ha & F & Hy). invert_binds F. injection F as <-.
    destruct Hy as [Hy|[]]. injection Hy as -> ->. split; [exact Ha|]. destruct (A _ Ha) as (A1 & A2 & A3 & A4 & A5).
    eapply copied_quiet; eassumption. }
  assert (PR : existsb snd x = false).
  { destruct (existsb snd x) eqn:Z; [|reflexivity]. apply existsb_exists in Z. destruct Z as ((a & b) & Hab & Z). cbn in Z.
    destruct (X _ _ Hab) as (_ & ->). discriminate. }
  rewrite PR, D in H. cbn [map app] in H. injection H as <-. rewrite app_nil_r in Hs. apply in_app_or in Hs. destruct Hs as [Hs|Hs].
  - apply in_flat_map in Hs. destruct Hs as (t & Ht & [<-|Hs]); [eauto|]. apply in_map_iff in Hs. destruct Hs as (y & <- & _). eauto 6.
  - apply in_flat_map in Hs. destruct Hs as ((a & b) & Hab & Hs). destruct (X _ _ Hab) as (Ha & ->).
    destruct (A _ Ha) as (A1 & A2 & A3 & A4 & A5). unfold alter_stmts_sqlite in Hs. rewrite A1, A3 in Hs. cbn [map app] in Hs.
    apply in_app_or in Hs. destruct Hs as [Hs|Hs]; apply in_map_iff in Hs; destruct Hs as (y & <- & _); eauto 6.
Qed.
Lemma forward_sqlite : forall prefix l, forward (if none l then [] else [File prefix false l]) = l.
Proof. intros prefix [|s l]; [reflexivity|]. cbn. rewrite app_nil_r. reflexivity. Qed.
Lemma results_sqlite : forall flt prefix src dest drop files ws, results SQLite flt prefix src dest drop = Ok (files, ws) ->
  exists p, new_sqlite_migration src dest drop = Ok p /\ sqlite_stmts p = Ok (forward files) /\ ws = [].
Proof.
  intros flt prefix src dest drop files ws H. cbn [results] in H. invert_binds H. injection H as <- <-. exists x.
  rewrite forward_sqlite. auto.
Qed.

Theorem nothing_destroyed : forall d flt prefix src dest files ws,
  results d flt prefix src dest false = Ok (files, ws) -> forall s, In s (forward files) -> destroys s = false.
Proof.
  intros d flt prefix src dest files ws H s Hs. destruct (sql_dialect d) eqn:Q.
  - eapply nothing_destroyed_sql; eassumption.
  - destruct d; try discriminate Q; [|discriminate H].
    apply results_sqlite in H. destruct H as (p & P & S & _).
    destruct (sqlite_stmts_quiet _ _ _ _ P S s Hs) as [(q & t & ->)|[(q & x & b & ->)|(q & c & ->)]]; reflexivity.
Qed.

(** ** Indexes *)
Theorem indexes_come_back : forall d flt prefix src dest files ws,
  results d flt prefix src dest false = Ok (files, ws) -> forall pre t n post, forward files = pre ++ QDropIndex t n :: post ->
  index_comes_back t n post.
Proof.
  intros d flt prefix src dest files ws H pre t n post F. destruct (sql_dialect d) eqn:Q.
  - destruct (segments _ _ _ _ _ _ _ _ Q H) as (l & p & alts & C & R & A & G). rewrite G in F. clear G H.
    pose proof (quiet_changes _ _ _ _ C) as QC. destruct (record_lists _ _ _ _ R) as (L1 & L2 & L3 & L4 & L5 & L6).
    cbn [empty_plan pl_drop_schemas pl_create_schemas pl_drop_tables pl_create_tables pl_alters app] in *.
    symmetry in F.
    destruct (split_app _ _ _ _ _ F) as [(m & E & _)|(m & _ & E)]; clear F.
    { exfalso. assert (Z : In (QDropIndex t n) (drops_part d (ct_current src) p)) by (rewrite E; apply in_elt).
      apply drops_part_in in Z. destruct Z as (? & ? & Z & _). discriminate. }
    symmetry in E. destruct (split_app _ _ _ _ _ E) as [(m' & F & _)|(m' & _ & F)]; clear E.
    { exfalso. assert (Z : In (QDropIndex t n) (schema_stmts d (ct_current src) p)) by (rewrite F; apply in_elt).
      unfold schema_stmts in Z. apply in_app_or in Z. destruct Z as [Z|Z].
      2: { apply in_map_iff in Z. destruct Z as (? & Z & _). discriminate. }
      destruct d; try (apply in_map_iff in Z; destruct Z as (? & Z & _); discriminate).
      apply in_flat_map in Z. destruct Z as (s & _ & Z). unfold drop_schema_stmts in Z. apply in_app_or in Z. destruct Z as [Z|[Z|[]]].
      - apply in_map_iff in Z. destruct Z as (? & Z & _). discriminate.
      - discriminate. }
    symmetry in F. destruct (split_app _ _ _ _ _ F) as [(m'' & E & _)|(m'' & _ & E)]; clear F.
    { exfalso. assert (Z : In (QDropIndex t n) (table_stmts (ct_current src) p)) by (rewrite E; apply in_elt).
      unfold table_stmts in Z. apply in_app_or in Z. destruct Z as [Z|Z].
      - apply in_map_iff in Z. destruct Z as (? & Z & _). discriminate.
      - apply create_with_indexes_in in Z. destruct Z as [(? & _ & Z)|(? & ? & ? & Z)]; discriminate. }
    symmetry in E. apply in_split_app in E.
    2: { intro Z. apply adds_part_in in Z. destruct Z as [(? & ? & ? & Z)|(? & ? & Z)]; discriminate. }
    destruct E as (k & E & ->). destruct (flatr_split _ _ _ A _ _ _ E) as (a & x & u & v & w & Ha & X & -> & ->).
    destruct (after_drop _ _ _ _ _ _ _ _ Q X eq_refl eq_refl) as (I1 & I2 & _).
    rewrite L5 in Ha. apply in_flat_map in Ha. destruct Ha as (c & Hc & Ha). specialize (QC c Hc).
    destruct c; try contradiction Ha. destruct Ha as [<-|[]]. destruct QC as (D & PG & I3).
    unfold alter_first in I1. apply in_app_or in I1. destruct I1 as [I1|I1].
    2: { apply in_map_iff in I1. destruct I1 as (? & Z & _). discriminate. }
    assert (Y : exists y, In y (al_drop_indexes a0) /\ t = dropped_at d src a0 y /\ n = ix_name y).
    { destruct d; try discriminate Q; apply in_app_or in I1; destruct I1 as [I1|I1]; apply in_map_iff in I1;
        destruct I1 as (y & Z & Hy); try discriminate Z; injection Z as <- <-; eauto. }
    destruct Y as (y & Hy & -> & ->). destruct (I2 y (I3 y Hy)) as (b & Hb). exists y, b. split; [|reflexivity].
    assert (T : dropped_at d src a0 y = created_at d src a0 y).
    { destruct d; try discriminate Q; try reflexivity. rewrite (PG eq_refl) in Hy. contradiction. }
    rewrite T. apply in_or_app. left. apply in_or_app. left. exact Hb.
  - destruct d; try discriminate Q; [|discriminate H].
    apply results_sqlite in H. destruct H as (p & P & S & _).
    assert (Hs : In (QDropIndex t n) (forward files)) by (rewrite F; apply in_elt).
    destruct (sqlite_stmts_quiet _ _ _ _ P S _ Hs) as [(q & x & Z)|[(q & x & b & Z)|(q & c & Z)]]; discriminate.
Qed.
