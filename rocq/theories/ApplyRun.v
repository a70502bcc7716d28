(** Running a whole migration: altering tables, adding foreign keys, and everything together. *)
From Coq Require Import Lia.
From Verif Require Import GoStr GoStrFacts ModelCatalog ModelCache CacheFacts ModelDdl ModelDiff ModelDiffSql SpecDiff DiffLookup DiffFacts
  DiffPlan DiffSegments DiffCreate DiffOrder SpecApply ApplyFacts ApplyNames ApplyAlter ApplyPair ApplyMysql ApplyPostgres ApplyPlan ApplyTables.

Lemma flatr_app_inv : forall {A C} (f : A -> result (list C)) a b l, flatr f (a ++ b) = Ok l ->
  exists l1 l2, flatr f a = Ok l1 /\ flatr f b = Ok l2 /\ l = l1 ++ l2.
Proof.
  intros A C f a. induction a as [|x a IH]; intros b l H; [exists [], l; auto|]. cbn [app flatr] in *.
  destruct (f x) as [y| |]; try discriminate H. cbn [bindr] in *. destruct (flatr f (a ++ b)) as [r| |] eqn:R; try discriminate H.
  cbn in H. injection H as <-. destruct (IH b r R) as (l1 & l2 & E1 & E2 & ->). exists (y ++ l1), l2. rewrite E1. cbn. rewrite app_assoc. auto.
Qed.
Lemma none_nil : forall {A} (l : list A), none l = true -> l = [].
Proof. intros A [|a l] H; [reflexivity|discriminate H]. Qed.

Section Run.
Context (d : dialect) (flt : bytes -> bool) (cs cd : catalog).
Let cur := ct_current cs.
Let coll := ct_collation cs.
Let src := ct_schemas cs.
Let dest := ct_schemas cd.
Hypothesis DD : d = MySQL \/ d = Postgres.
Hypothesis SU : suitable d flt cs cd.
Let Os : orderly src := proj1 (proj1 SU).
Let Od : orderly dest := proj2 (proj1 SU).
Let PS : proper_keys src := proj1 (proj1 (proj2 SU)).
Let PD : proper_keys dest := proj2 (proj1 (proj2 SU)).
Let NS : plain_names src := proj1 (proj1 (proj2 (proj2 SU))).
Let ND : plain_names dest := proj2 (proj1 (proj2 (proj2 SU))).
Let RS : readable_types d src := proj1 (proj1 (proj2 (proj2 (proj2 SU)))).
Let RD : readable_types d dest := proj2 (proj1 (proj2 (proj2 (proj2 SU)))).
Let CR : creatable d cur dest := proj1 (proj2 (proj2 (proj2 (proj2 SU)))).
Let SO : same_objects d cur src dest := proj1 (proj2 (proj2 (proj2 (proj2 (proj2 SU))))).
Let KT : kept_targets cur src dest := proj1 (proj2 (proj2 (proj2 (proj2 (proj2 (proj2 SU)))))).
Let SEP : separate d src dest := proj1 (proj2 (proj2 (proj2 (proj2 (proj2 (proj2 (proj2 SU))))))).
Let NT : noticed src dest := proj1 (proj2 (proj2 (proj2 (proj2 (proj2 (proj2 (proj2 (proj2 SU)))))))).
Let PG := proj2 (proj2 (proj2 (proj2 (proj2 (proj2 (proj2 (proj2 (proj2 SU)))))))).

(** ** One table *)
Lemma unrecorded : forall q s t, located src q s -> located dest q t -> recorded (the_alter d cs true s t) = [] ->
  alter_code d flt cs (the_alter d cs true s t) = Ok [].
Proof.
  intros q s t Ls Lt R.
  assert (Q : sql_dialect d = true) by (destruct DD as [->| ->]; reflexivity).
  pose proof (orderly_columns _ Os _ _ Ls) as N1. pose proof (orderly_indexes _ Os _ _ Ls) as N2. pose proof (orderly_indexes _ Od _ _ Lt) as N3.
  assert (X : only_cols s t = []).
  { rewrite (only_cols_spec s t (orderly_columns _ Od _ _ Lt)). destruct (extra_columns s t) eqn:E; [reflexivity|]. exfalso.
    assert (A : altered_table s t) by (apply (NT q s t Ls Lt); rewrite E; discriminate).
    pose proof (altered_recorded d cs s t Q N1 N2 N3 A) as Z. rewrite R in Z. discriminate Z. }
  unfold recorded in R. destruct (_ && _) eqn:E in R; [|discriminate R]. clear R. rewrite !andb_true_iff in E.
  destruct E as ((((((E1 & E2) & E3) & E4) & E5) & E6) & E7). apply none_nil in E1, E2, E3, E4, E5, E6, E7.
  destruct DD as [->| ->]; cbn [alter_code the_alter] in *.
  - unfold alter_stmts_mysql. rewrite E1, E2, E3, E4, E6, E7. cbn [the_alter_mysql al_drop_columns keep]. rewrite X. reflexivity.
  - unfold alter_steps_postgres. rewrite E1, E2, E3, E4, E5, E6, E7. cbn [the_alter_postgres al_alter_columns] in E4. cbn [the_alter_postgres al_drop_columns keep al_validate]. rewrite X, E4. reflexivity.
Qed.
Lemma readable_at : forall l q t, readable_types d l -> located l q t -> readable d t.
Proof. intros l q t R (s & Hs & Ht & _) c Hc. exact (R s t c Hs Ht Hc). Qed.
Lemma alter_leads : forall q s t l x dt, located src q s -> located dest q t ->
  flatr (alter_code d flt cs) (flat_map ch_alter (recorded (the_alter d cs true s t))) = Ok l ->
  steady d cur src dest x -> db_tables x q = Some dt -> old_state s t dt ->
  leads d cur coll src dest l q x (ready d cur coll (to_come src q) t).
Proof.
  intros q s t l x dt Ls Lt H J E O.
  assert (H' : alter_code d flt cs (the_alter d cs true s t) = Ok l).
  { destruct (recorded (the_alter d cs true s t)) as [|a r] eqn:R.
    - cbn in H. rewrite (unrecorded q s t Ls Lt R). exact H.
    - unfold recorded in R. destruct (_ && _) in R; [discriminate R|]. injection R as <- <-. cbn [flat_map ch_alter app flatr] in H.
      destruct (alter_code d flt cs (the_alter d cs true s t)) as [y| |]; try discriminate H. cbn in H. rewrite app_nil_r in H. exact H. }
  pose proof (readable_at _ _ _ RS Ls) as R1. pose proof (readable_at _ _ _ RD Lt) as R2.
  assert (G : leads d cur coll src dest l q x (ready d cur coll (fun b => called con_name (tb_constraints s) (con_name b) = None) t)).
  { destruct (orderly_schema _ Od _ _ Lt) as (Zs & Z).
    destruct DD as [D|D].
    - rewrite D in *. cbn [alter_code the_alter] in H'. injection H' as <-.
      exact (mysql_pair cs cur src dest Os Od PS PD NS ND CR SO KT SEP q s t Ls Lt R1 R2 x dt J E O).
    - rewrite D in *. destruct (PG eq_refl) as (AC & FC & _). cbn [the_alter] in H'.
      refine (postgres_pair flt cs cur src dest Os Od PS PD CR SO KT SEP AC FC q s t Ls Lt R1 R2 (qualify cur (tb_schema t) (tb_name t)) _ eq_refl l x dt eq_refl H' J E O).
      rewrite place_qualify; [symmetry; apply (orderly_at _ Od); exact Lt|]. rewrite <- Zs. exact Z. }
  eapply leads_imp; [exact G|]. intros dt' _ R. refine (ready_ext _ _ _ _ _ _ _ _ R). intros b Hb F. unfold to_come. split.
  - intros Z s' Ls'. rewrite (located_src_one src Os _ _ _ Ls Ls'). exact Z.
  - intro Z. exact (Z s Ls).
Qed.

(** ** All tables *)
Definition spot (p : table * table) : qname := site (snd p).
Let old := old_tables src dest.
Definition altering (l : list (table * table)) (x : database) : Prop :=
  incl l old /\ NoDup (map spot l)
  /\ state d cur coll src dest (in_schemas dest) (fun q => In q (map spot l)) (fun q => (exists t, located dest q t) /\ ~ In q (map spot l)) x.
Lemma alters_stage : forall l x alts, altering l x ->
  flatr (alter_code d flt cs) (flat_map (fun p => flat_map ch_alter (recorded (the_alter d cs true (fst p) (snd p)))) l) = Ok alts ->
  runs d cur coll alts x /\ altering [] (after d cur coll alts x).
Proof.
  intro l. induction l as [|(s & t) l IH]; intros x alts A H; [cbn in H; injection H as <-; split; [exact I|exact A]|].
  cbn [flat_map fst snd] in H. apply flatr_app_inv in H. destruct H as (l1 & l2 & H1 & H2 & ->).
  destruct A as (I0 & N & J & SS & T & B0 & R). cbn [map] in N. inversion N as [|? ? N1 N2]; subst.
  destruct (proj1 (old_tables_are src dest Os Od s t) (I0 _ (or_introl eq_refl))) as (Ls & Lt).
  destruct (proj2 (T (site t))) as (dt & E); [left; left; reflexivity|].
  assert (O : old_state s t dt) by (apply (B0 (site t) s dt); [left; reflexivity|exact Ls|exact E|exact Lt]).
  destruct (alter_leads _ _ _ _ _ _ Ls Lt H1 J E O) as (R1 & dt' & E' & (ES & ET) & J' & RY).
  assert (A' : altering l (after d cur coll l1 x)).
  { split; [intros p Hp; apply I0; right; exact Hp|]. split; [exact N2|]. split; [exact J'|]. split; [|split; [|split]].
    - intro n. rewrite ES. apply SS.
    - intro q. destruct (qeqb_spec q (site t)) as [->|Nq].
      + split; [intros _; right; split; [eauto|exact N1]|]. eauto.
      + rewrite (ET q Nq), T. cbn [map In]. unfold spot at 1 3. cbn [snd]. split.
        * intros [[Z|Z]|(Z1 & Z2)]; [congruence|left; exact Z|right; split; [exact Z1|tauto]].
        * intros [Z|(Z1 & Z2)]; [left; right; exact Z|right; split; [exact Z1|]]. intros [Z|Z]; [congruence|contradiction].
    - intros q s' dt2 Hq Ls' E2. assert (Nq : q <> site t) by (intro Z; subst q; exact (N1 Hq)). rewrite (ET q Nq) in E2.
      apply (B0 q s' dt2); [right; exact Hq|exact Ls'|exact E2].
    - intros q t' dt2 (Z1 & Z2) Lt' E2. destruct (qeqb_spec q (site t)) as [->|Nq].
      + rewrite E' in E2. injection E2 as <-. rewrite (located_dest_one dest Od _ _ _ Lt Lt'). exact RY.
      + rewrite (ET q Nq) in E2. apply (R q t' dt2); [|exact Lt'|exact E2]. split; [exact Z1|]. cbn. unfold spot at 1. cbn. intros [Z|Z]; [congruence|contradiction]. }
  destruct (IH _ _ A' H2) as (R2 & A2). rewrite after_app. split; [apply runs_after; assumption|exact A2].
Qed.

(** ** Foreign keys *)
Definition adding (l : list constraint) (x : database) : Prop :=
  (forall c, In c l -> left_out dest src c) /\ NoDup (map slot_of l)
  /\ all_tables_ok (names_ok d src dest) x
  /\ (forall n, db_schemas x n = true <-> in_schemas dest n)
  /\ (forall q, (exists dt, db_tables x q = Some dt) <-> exists t, located dest q t)
  /\ forall q t dt, located dest q t -> db_tables x q = Some dt -> ready d cur coll (fun b => In b l) t dt.
Lemma adding_start : forall l x, (forall c, In c l <-> left_out dest src c) -> NoDup (map slot_of l) -> altering [] x -> adding l x.
Proof.
  intros l x HL N (_ & _ & J & SS & T & _ & R). split; [apply HL|]. split; [exact N|]. split; [exact (steady_names _ _ _ _ _ J)|]. split; [exact SS|]. split.
  - intro q. rewrite T. cbn. tauto.
  - intros q t dt L E. refine (ready_ext _ _ _ _ _ _ _ _ (R q t dt _ L E)).
    + intros b Hb F. rewrite HL. split.
      * intro Z. exists q, t. auto.
      * intros (q' & t' & L' & Hb' & _ & Z). destruct (con_facts _ Od _ _ _ L Hb) as (_ & _ & E1). destruct (con_facts _ Od _ _ _ L' Hb') as (_ & _ & E2).
        assert (Eq : q' = q) by congruence. rewrite Eq in Z. exact Z.
    + split; [eauto|intros []].
Qed.
Lemma adding_here : forall c l x, adding l x -> left_out dest src c -> exists q t dt, place cur (at_owner cur c) = q /\ located dest q t /\ In c (tb_constraints t)
  /\ foreign c /\ db_tables x q = Some dt /\ ready d cur coll (fun b => In b l) t dt.
Proof.
  intros c l x (_ & _ & _ & _ & T & R) (q & t & L & Hc & F & _). destruct (proj2 (T q) (ex_intro _ t L)) as (dt & E). exists q, t, dt.
  destruct (con_facts _ Od _ _ _ L Hc) as (_ & _ & Eq). destruct (orderly_schema _ Od _ _ L) as (_ & NE).
  split; [|split; [exact L|split; [exact Hc|split; [exact F|split; [exact E|exact (R q t dt L E)]]]]].
  unfold at_owner. rewrite <- Eq in *. apply place_qualify. exact NE.
Qed.
Lemma foreign_not_primary : forall c, foreign c -> ~ primary c.
Proof. intros c F P. exact (key_not_foreign c (primary_key_is c P) F). Qed.
Lemma adding_step : forall v c l x, adding (c :: l) x ->
  allowed d cur x (QAddConstraint (at_owner cur c) c v) /\ adding l (effect d cur coll x (QAddConstraint (at_owner cur c) c v)).
Proof.
  intros v c l x A. assert (LO : left_out dest src c) by (apply (proj1 A); left; reflexivity).
  destruct (adding_here c (c :: l) x A LO) as (q & t & dt & W & L & Hc & F & E & (Y1 & Y2 & Y3 & Y4 & Y5 & Y6 & Y7)).
  destruct A as (HL & N & J & SS & T & R). cbn [map] in N. inversion N as [|? ? N1 N2]; subst. set (q := place cur (at_owner cur c)) in *.
  pose proof (orderly_constraints _ Od _ _ L) as NK. destruct (con_facts _ Od _ _ _ L Hc) as (_ & NE & Eq).
  destruct (CR q t L) as (_ & _ & _ & C4 & _ & _ & C7 & _).
  assert (E0 : dt_constraints dt (con_name c) = None) by (apply (Y5 _ c); [apply called_in; assumption|exact F|left; reflexivity]).
  split.
  - cbn [allowed]. exists dt. fold q. split; [exact E|]. split; [exact NE|]. split; [exact E0|]. split.
    { apply (fresh_constraint d cur src dest Od CR SEP x q t c J L Hc). intros dt' Z. rewrite E in Z. injection Z as <-. split; [exact E0|].
      intro K. contradiction (key_not_foreign c K F). }
    destruct (C4 c Hc (or_intror F)) as (K1 & K2). split; [exact K1|]. split.
    { intros n Hn Z. apply Y1 in Z. apply (called_none_map col_name) in Z. exact (Z (K2 n Hn)). }
    split; [intros _ P; contradiction (foreign_not_primary c F P)|]. split; [intro P; contradiction (foreign_not_primary c F P)|].
    intros _. destruct (C7 c Hc F) as (_ & u & r & Lu & U1 & U2 & U3 & U4). destruct (proj2 (T _) (ex_intro _ u Lu)) as (du & Eu).
    destruct (R _ u du Lu Eu) as (V1 & _ & _ & V4 & _). destruct (V4 (con_name r) r) as (k & Hk & S1 & S2 & _).
    { apply called_in; [exact (orderly_constraints _ Od _ _ Lu)|exact U2]. }
    { left. exact U3. }
    exists du, k, (con_name r). split; [exact Eu|]. split; [|split; [exact Hk|split]].
    + intros n Hn Z. apply V1 in Z. apply (called_none_map col_name) in Z. exact (Z (U1 n Hn)).
    + unfold unique_key in *. rewrite S1. exact U3.
    + rewrite S2. exact U4.
  - cbn [effect]. fold q. rewrite (change_at_is _ _ _ _ E).
    assert (CC : forall n, dt_columns (with_constraint c dt) n = dt_columns dt n).
    { intro n. rewrite with_constraint_columns. destruct (beqb_spec (con_type c) PRIMARY_KEY) as [P|_]; [contradiction (foreign_not_primary c F P)|reflexivity]. }
    split; [intros k Hk; apply HL; right; exact Hk|]. split; [exact N2|]. split; [|split; [exact SS|split]].
    + apply ok_set_table; [exact J|]. destruct (J q dt E) as (M1 & M2 & M3). split; [exact M1|]. split; [|exact M3].
      intros n k. cbn. unfold put. destruct (beqb_spec n (con_name c)) as [->|_]; [|apply M2]. intro Z. injection Z as <-. split; [reflexivity|].
      left. exists dest, t, c. split; [right; reflexivity|]. auto.
    + intro p. cbn. destruct (qeqb_spec p q) as [->|Np]; [|apply T]. split; eauto.
    + intros p t' dt' L' E'. cbn in E'. destruct (qeqb_spec p q) as [->|Np].
      * injection E' as <-. rewrite (located_dest_one dest Od _ _ _ L L'). clear t' L'.
        assert (SAME : forall n b, called con_name (tb_constraints t) n = Some b -> n = con_name c -> b = c).
        { intros n b Hb ->. rewrite (called_in con_name _ _ NK Hc) in Hb. injection Hb as <-. reflexivity. }
        split; [|split; [|split; [|split; [|split; [|split; [|exact Y7]]]]]].
        -- intro n. rewrite CC. apply Y1.
        -- intros n a b. rewrite CC. apply Y2.
        -- intros n a. cbn. unfold put. destruct (beqb_spec n (con_name c)) as [->|_]; [|apply Y3]. intros _ _. exists c. apply called_in; assumption.
        -- intros n b Hb K. cbn. unfold put. destruct (beqb_spec n (con_name c)) as [En|Nn].
           ++ exists c. split; [reflexivity|]. rewrite (SAME n b Hb En). split; [reflexivity|]. split; [reflexivity|]. auto.
           ++ apply (Y4 n b Hb). destruct K as [K|(K1 & K2)]; [left; exact K|right]. split; [exact K1|]. intros [Z|Z]; [|contradiction].
              apply Nn. rewrite Z. symmetry. apply (called_some con_name _ _ _ Hb).
        -- intros n b Hb Fb Ib. cbn. unfold put. destruct (beqb_spec n (con_name c)) as [En|Nn].
           ++ exfalso. rewrite (SAME n b Hb En) in Ib. apply N1. apply in_map. exact Ib.
           ++ apply (Y5 n b Hb Fb). right. exact Ib.
        -- intros D n a b. cbn. unfold put. destruct (beqb_spec n (con_name c)) as [En|Nn]; [|apply (Y6 D)]. intros Ea Eb. injection Ea as <-.
           rewrite (SAME n b Eb En). split; reflexivity.
      * refine (ready_ext _ _ _ _ _ _ _ _ (R p t' dt' L' E')). intros b Hb _. cbn. split; [intros [Z|Z]; [|exact Z]|auto]. exfalso. apply Np.
        destruct (con_facts _ Od _ _ _ L' Hb) as (_ & _ & Eb). rewrite <- Z in Eb. congruence.
Qed.
Lemma validating : forall bl c l x, adding l x -> In c bl -> (forall k, In k bl -> left_out dest src k) -> NoDup (map slot_of (bl ++ l)) ->
  allowed d cur x (QValidate (at_owner cur c) (con_name c)).
Proof.
  intros bl c l x A Hc LO N. destruct (adding_here c l x A (LO c Hc)) as (q & t & dt & W & L & Ht & F & E & (_ & _ & _ & Y4 & _)).
  cbn [allowed]. exists dt. rewrite W. split; [exact E|]. destruct (Y4 (con_name c) c) as (a & Ha & _).
  - apply called_in; [exact (orderly_constraints _ Od _ _ L)|exact Ht].
  - right. split; [exact F|]. intro Z. rewrite map_app in N. 
    revert N Hc Z. clear. induction bl as [|b bl IH]; cbn; intros N Hc Z; [contradiction|]. inversion N as [|? ? N1 N2]; subst. destruct Hc as [->|Hc].
    + apply N1. apply in_or_app. right. apply in_map. exact Z.
    + exact (IH N2 Hc Z).
  - rewrite Ha. discriminate.
Qed.
Definition adding_blocks (l : list (list constraint * bool)) (x : database) : Prop := adding (flat_map fst l) x.
Lemma adding_block : forall b l x, adding_blocks (b :: l) x ->
  runs d cur coll (key_block cur b) x /\ adding_blocks l (after d cur coll (key_block cur b) x).
Proof.
  intros (bl & v) l x A. unfold adding_blocks in A. cbn [flat_map fst] in A.
  assert (LO : forall k, In k bl -> left_out dest src k) by (intros k Hk; apply (proj1 A); apply in_or_app; left; exact Hk).
  pose proof (proj1 (proj2 A)) as N.
  unfold key_block. cbn [fst snd].
  destruct (loop1 d cur coll (fun c => QAddConstraint (at_owner cur c) c v) (fun m y => adding (m ++ flat_map fst l) y)
    (fun c m y H => adding_step v c (m ++ flat_map fst l) y H) bl x A) as (R1 & P1). cbn [app] in P1.
  set (y := after d cur coll (map (fun c => QAddConstraint (at_owner cur c) c v) bl) x) in *.
  assert (G : forall m, incl m bl -> runs d cur coll (map (fun c => QValidate (at_owner cur c) (con_name c)) m) y
     /\ after d cur coll (map (fun c => QValidate (at_owner cur c) (con_name c)) m) y = y).
  { intro m. induction m as [|c m IH]; intro I0; [split; [exact I|reflexivity]|]. destruct IH as (Q1 & Q2); [intros k Hk; apply I0; right; exact Hk|].
    cbn [map]. split; [split; [|exact Q1]|exact Q2]. apply (validating bl c (flat_map fst l) y P1); [apply I0; left; reflexivity|exact LO|exact N]. }
  destruct v.
  - destruct (G bl (incl_refl _)) as (Q1 & Q2). rewrite after_app. fold y. rewrite Q2. split; [apply runs_after; assumption|exact P1].
  - rewrite app_nil_r. split; assumption.
Qed.
Lemma adding_end : forall x, adding [] x -> agrees d cur coll x dest.
Proof.
  intros x (_ & _ & _ & SS & T & R). split; [exact SS|]. split; [exact T|]. intros q t dt L E.
  eapply ready_agrees; [|exact (R q t dt L E)]. intros b _ [].
Qed.

(** ** All *)
Theorem migration_runs : forall prefix files ws x, results d flt prefix cs cd true = Ok (files, ws) -> describes src x ->
  runs d cur coll (forward files) x /\ agrees d cur coll (after d cur coll (forward files) x) dest.
Proof.
  intros prefix files ws x H D.
  destruct (statements_are d flt prefix cs cd files ws DD Os Od RS RD) as (kd & sd & sc & td & tc & alts & blocks & EF & (K1 & K2) & (S1 & S2) & (S3 & S4) & (T1 & T2) & (T3 & T4) & HA & (B1 & B2)).
  { intro E. destruct (PG E) as (_ & _ & O1 & O2). auto. }
  { exact H. }
  rewrite EF. clear EF.
  destruct (keys_dropped_stage d cur coll src dest DD Os Od SO kd K1 K2 x D) as (R1 & P1).
  destruct (schemas_stage d cur coll src dest DD Od CR sd sc S1 S2 S3 S4 _ P1) as (R2 & P2).
  destruct (tables_stage d cur coll src dest DD Os Od PD CR SEP RD td tc T1 T2 T3 T4 _ P2) as (R3 & P3).
  assert (P3' : altering old (after d cur coll (map (fun t => QDropTable (at_table cur t)) td ++ flat_map (create_with_indexes cur) tc)
     (after d cur coll (map QDropSchema sd ++ map QCreateSchema sc) (after d cur coll (map (drop_key cur) kd) x)))).
  { assert (OL : forall q, (exists s, located src q s) /\ (exists t, located dest q t) <-> In q (map spot old)).
    { intro q. rewrite in_map_iff. split.
      - intros ((s & Ls) & t & Lt). exists (s, t). pose proof (orderly_at _ Od _ _ Lt) as Eq. split; [symmetry; exact Eq|].
        apply (old_tables_are src dest Os Od s t). unfold site. rewrite <- Eq. auto.
      - intros ((s & t) & <- & Z). apply (old_tables_are src dest Os Od s t) in Z. destruct Z. split; eauto. }
    split; [apply incl_refl|]. split; [exact (old_tables_once src dest Od)|]. refine (state_ext d cur coll src dest _ _ _ _ _ _ _ _ _ _ P3); [reflexivity|exact OL|].
    intro q. rewrite <- OL. split.
    - intros (Z1 & Z2). split; [exact Z1|]. intros ((s & Z) & _). exact (Z2 s Z).
    - intros (Z1 & Z2). split; [exact Z1|]. intros s Z. apply Z2. split; eauto. }
  destruct (alters_stage _ _ _ P3' HA) as (R4 & P4).
  destruct (loop d cur coll (key_block cur) adding_blocks adding_block blocks _ (adding_start _ _ B2 B1 P4)) as (R5 & P5).
  rewrite (app_assoc (map QDropSchema sd)), (app_assoc (map (fun t => QDropTable (at_table cur t)) td)).
  set (l2 := map QDropSchema sd ++ _) in *. set (l3 := map (fun t => QDropTable (at_table cur t)) td ++ _) in *. split.
  - apply runs_after; [exact R1|]. apply runs_after; [exact R2|]. apply runs_after; [exact R3|]. apply runs_after; [exact R4|exact R5].
  - rewrite !after_app. apply adding_end. exact P5.
Qed.
End Run.
