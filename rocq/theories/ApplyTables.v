(** Running a migration: dropping foreign keys, schemas and tables and creating schemas and tables. *)
From Coq Require Import Lia.
From Verif Require Import GoStr GoStrFacts ModelCatalog ModelCache CacheFacts ModelDdl ModelDiff ModelDiffSql SpecDiff DiffLookup DiffFacts
  DiffPlan DiffSegments DiffCreate DiffOrder SpecApply ApplyFacts ApplyNames ApplyAlter ApplyPair ApplyPlan.

Lemma runs_after : forall d cur coll a b x, runs d cur coll a x -> runs d cur coll b (after d cur coll a x) -> runs d cur coll (a ++ b) x.
Proof. intros. apply runs_app. auto. Qed.
Definition has_key (l : list constraint) (q : qname) (n : bytes) : bool :=
  existsb (fun c => qeqb (con_schema c, con_table c) q && beqb (con_name c) n) l.
Lemma has_key_spec : forall l q n, has_key l q n = true <-> exists c, In c l /\ (con_schema c, con_table c) = q /\ con_name c = n.
Proof.
  intros l q n. unfold has_key. rewrite existsb_exists. split.
  - intros (c & Hc & E). apply andb_true_iff in E. destruct E as (E1 & E2). destruct (qeqb_spec (con_schema c, con_table c) q) as [<-|]; [|discriminate].
    apply beqb_eq in E2. eauto.
  - intros (c & Hc & <- & <-). exists c. rewrite qeqb_refl, beqb_refl. auto.
Qed.
Lemma has_key_cons : forall c l q n, has_key (c :: l) q n = qeqb (con_schema c, con_table c) q && beqb (con_name c) n || has_key l q n.
Proof. reflexivity. Qed.

Section Stages.
Context (d : dialect) (cur coll : bytes) (src dest : list schema).
Hypothesis DD : d = MySQL \/ d = Postgres.
Hypothesis Os : orderly src.
Hypothesis Od : orderly dest.
Hypothesis PD : proper_keys dest.
Hypothesis CR : creatable d cur dest.
Hypothesis SO : same_objects d cur src dest.
Hypothesis SEP : separate d src dest.
Hypothesis RT : readable_types d dest.

Definition in_schemas (l : list schema) (n : bytes) : Prop := In n (map sc_name l).
Definition before (q : qname) (s : table) (dt : dtable) : Prop := forall t, located dest q t -> old_state s t dt.
Definition to_come (q : qname) (b : constraint) : Prop := forall s, located src q s -> called con_name (tb_constraints s) (con_name b) = None.
(** The schemas are [SC], the tables [OLD] are still as in the source and the tables [NEW]
    lack only foreign keys. *)
Definition state (SC : bytes -> Prop) (OLD NEW : qname -> Prop) (x : database) : Prop :=
  steady d cur src dest x
  /\ (forall n, db_schemas x n = true <-> SC n)
  /\ (forall q, (exists dt, db_tables x q = Some dt) <-> OLD q \/ NEW q)
  /\ (forall q s dt, OLD q -> located src q s -> db_tables x q = Some dt -> before q s dt)
  /\ (forall q t dt, NEW q -> located dest q t -> db_tables x q = Some dt -> ready d cur coll (to_come q) t dt).
Lemma state_ext : forall SC OLD NEW SC' OLD' NEW' x, (forall n, SC n <-> SC' n) -> (forall q, OLD q <-> OLD' q) -> (forall q, NEW q <-> NEW' q) ->
  state SC OLD NEW x -> state SC' OLD' NEW' x.
Proof.
  intros SC OLD NEW SC' OLD' NEW' x E1 E2 E3 (J & S & T & B0 & R). split; [exact J|]. split; [|split; [|split]].
  - intro n. rewrite S. apply E1.
  - intro q. rewrite T, E2, E3. reflexivity.
  - intros q s dt H. apply B0. apply E2. exact H.
  - intros q t dt H. apply R. apply E3. exact H.
Qed.
Lemma located_dest_one : forall q t t', located dest q t -> located dest q t' -> t' = t.
Proof. intros q t t' H H'. exact (located_one _ _ _ _ (orderly_tables _ Od) H' H). Qed.
Lemma located_src_one : forall q t t', located src q t -> located src q t' -> t' = t.
Proof. intros q t t' H H'. exact (located_one _ _ _ _ (orderly_tables _ Os) H' H). Qed.
Lemma located_schema : forall l q t, located l q t -> in_schemas l (fst q).
Proof. intros l q t (s & Hs & _ & ->). unfold in_schemas. cbn. apply in_map. exact Hs. Qed.

(** ** Foreign keys that are not wanted *)
Section Drop_keys.
Context (kd : list constraint).
Hypothesis KN : NoDup (map slot_of kd).
Hypothesis KD : forall k, In k kd <-> left_out src dest k.
Definition dropping (l : list constraint) (x : database) : Prop :=
  incl l kd /\ NoDup (map slot_of l)
  /\ (forall n, db_schemas x n = true <-> in_schemas src n)
  /\ (forall q, (exists dt, db_tables x q = Some dt) <-> exists t, located src q t)
  /\ forall q s dt, located src q s -> db_tables x q = Some dt ->
     shape (fun n => option_map stored (called col_name (tb_columns s) n))
       (fun n => match called con_name (tb_constraints s) n with
                 | Some a => if has_key kd q n && negb (has_key l q n) then None else Some a
                 | None => None
                 end) (called ix_name (tb_indexes s)) dt.
Lemma dropping_start : forall x, describes src x -> dropping kd x.
Proof.
  intros x (D1 & D2 & D3). split; [apply incl_refl|]. split; [exact KN|]. split; [exact D1|]. split; [exact D2|].
  intros q s dt L E. specialize (D3 q s dt L E). split; [|split]; intro n; destruct (D3 n) as (E1 & E2 & E3); [exact E1| |exact E3].
  rewrite E2. rewrite andb_negb_r. destruct (called con_name (tb_constraints s) n); reflexivity.
Qed.
Lemma dropping_step : forall c l x, dropping (c :: l) x -> allowed d cur x (drop_key cur c) /\ dropping l (effect d cur coll x (drop_key cur c)).
Proof.
  intros c l x (I0 & N & S & T & H). assert (Hc : In c kd) by (apply I0; left; reflexivity).
  destruct (proj1 (KD c) Hc) as (q & s & L & Hs & F & _). destruct (con_facts _ Os _ _ _ L Hs) as (_ & _ & Eq).
  assert (W : place cur (at_owner cur c) = q).
  { unfold at_owner. rewrite place_qualify; [exact Eq|]. destruct (orderly_schema _ Os _ _ L) as (_ & NE). rewrite <- Eq in NE. exact NE. }
  destruct (proj2 (T q) (ex_intro _ s L)) as (dt & E). pose proof (H q s dt L E) as (H1 & H2 & H3).
  assert (Ec : dt_constraints dt (con_name c) = Some c).
  { rewrite H2, (called_in con_name _ _ (orderly_constraints _ Os _ _ L) Hs). rewrite has_key_cons, Eq, qeqb_refl, beqb_refl. cbn. rewrite andb_false_r. reflexivity. }
  split.
  - cbn [drop_key allowed]. exists dt. rewrite W. split; [exact E|]. exists c. split; [exact Ec|]. intros K. exfalso. exact (key_not_foreign c K F).
  - cbn [drop_key effect]. rewrite W, (change_at_is _ _ _ _ E). split; [intros k Hk; apply I0; right; exact Hk|].
    cbn [map] in N. inversion N as [|? ? N1 N2]; subst. split; [exact N2|]. split; [exact S|]. split.
    + intro p. cbn. destruct (qeqb_spec p (con_schema c, con_table c)) as [->|Np]; [|apply T]. split; [intros _; eauto|intros _; eauto].
    + intros p s' dt' L' E'. cbn in E'. destruct (qeqb_spec p (con_schema c, con_table c)) as [->|Np].
      * injection E' as <-. rewrite (located_src_one _ _ _ L L'). split; [exact H1|]. split; [|exact H3]. intro n. cbn. unfold put.
        destruct (beqb_spec n (con_name c)) as [->|Nn].
        -- rewrite (called_in con_name _ _ (orderly_constraints _ Os _ _ L) Hs).
           replace (has_key kd (con_schema c, con_table c) (con_name c)) with true by (symmetry; apply has_key_spec; eauto).
           replace (has_key l (con_schema c, con_table c) (con_name c)) with false; [reflexivity|]. symmetry.
           destruct (has_key l _ _) eqn:Z; [|reflexivity]. exfalso. apply has_key_spec in Z. destruct Z as (k & Hk & Z1 & Z2). apply N1.
           apply in_map_iff. exists k. split; [|exact Hk]. unfold slot_of. congruence.
        -- rewrite H2. rewrite has_key_cons. destruct (beqb_spec (con_name c) n) as [Z|_]; [congruence|]. rewrite andb_false_r. reflexivity.
      * destruct (H p s' dt' L' E') as (G1 & G2 & G3). split; [exact G1|]. split; [|exact G3]. intro n. rewrite G2, has_key_cons.
        destruct (qeqb_spec (con_schema c, con_table c) p) as [Z|_]; [congruence|]. reflexivity.
Qed.
Lemma has_key_dropped : forall q s n a, located src q s -> called con_name (tb_constraints s) n = Some a ->
  (has_key kd q n = true <-> foreign a /\ forall t, located dest q t -> called con_name (tb_constraints t) n = None).
Proof.
  intros q s n a L E. apply called_some in E. destruct E as (Ha & <-). rewrite has_key_spec. split.
  - intros (c & Hc & Eq & En). apply KD in Hc. destruct Hc as (q' & s' & L' & Hc & F & N). destruct (con_facts _ Os _ _ _ L' Hc) as (_ & _ & Eq').
    assert (Z : q' = q) by congruence. rewrite Z in *. clear Z. rewrite (located_src_one _ _ _ L L') in Hc.
    assert (c = a) by (apply (NoDup_map_inj_on con_name (tb_constraints s)); auto; exact (orderly_constraints _ Os _ _ L)). subst c. rewrite En in N || idtac. auto.
  - intros (F & N). exists a. split; [apply KD; exists q, s; auto|]. split; [|reflexivity]. apply (con_facts _ Os _ _ _ L Ha).
Qed.
Lemma dropping_end : forall x, dropping [] x -> state (in_schemas src) (fun q => exists s, located src q s) (fun _ => False) x.
Proof.
  intros x (_ & _ & S & T & H).
  assert (CC : forall q s dt n c, located src q s -> db_tables x q = Some dt -> dt_constraints dt n = Some c ->
     called con_name (tb_constraints s) n = Some c /\ has_key kd q n = false).
  { intros q s dt n c L E Hc. destruct (H q s dt L E) as (_ & H2 & _). rewrite H2 in Hc.
    destruct (called con_name (tb_constraints s) n) as [a|]; [|discriminate]. cbn in Hc. rewrite andb_true_r in Hc.
    destruct (has_key kd q n); [discriminate|]. auto. }
  split; [|split; [exact S|split; [|split]]].
  - intros q dt E. destruct (proj1 (T q) (ex_intro _ dt E)) as (s & L). destruct (H q s dt L E) as (_ & H2 & H3). split; [split; [|split]|].
    + exists src, s. split; [left; reflexivity|exact L].
    + intros n c Hc. destruct (CC q s dt n c L E Hc) as (Z & _). apply called_some in Z. destruct Z as (Z1 & Z2). split; [exact Z2|].
      left. exists src, s, c. split; [left; reflexivity|]. auto.
    + intros n i Hi. rewrite H3 in Hi. apply called_some in Hi. destruct Hi as (Z1 & Z2). split; [exact Z2|].
      left. exists src, s, i. split; [left; reflexivity|]. auto.
    + intros n c Hc F. destruct (CC q s dt n c L E Hc) as (Z & Z'). pose proof (has_key_dropped _ _ _ _ L Z) as HK.
      destruct (somewhere dest q Od) as [Nw|(t & Lt)].
      { exfalso. rewrite (proj2 HK) in Z'; [discriminate|]. split; [exact F|]. intros t Lt. contradiction (Nw t Lt). }
      destruct (called con_name (tb_constraints t) n) as [g|] eqn:G.
      2: { exfalso. rewrite (proj2 HK) in Z'; [discriminate|]. split; [exact F|]. intros t' Lt'. rewrite (located_dest_one _ _ _ Lt Lt'). exact G. }
      apply called_some in Z. destruct Z as (Hc' & En). apply called_some in G. destruct G as (Hg & Eg).
      destruct (SO q s t L Lt) as (SC & _). destruct (SC c g Hc' Hg) as (S1 & S2 & S3 & _); [congruence|].
      assert (Fg : foreign g) by (unfold foreign in *; congruence).
      exists s, t, c, g. refine (conj L (conj Lt (conj Hc' (conj Hg (conj En (conj Eg (conj Fg (conj S1 (conj _ S3))))))))).
      destruct S2 as [S2|(_ & S2)]; [exact S2|]. unfold primary, foreign in *. rewrite Fg in S2. discriminate.
  - intro q. rewrite T. tauto.
  - intros q s dt _ L E t Lt. destruct (H q s dt L E) as (H1 & H2 & H3). split; [exact H1|]. split; [|exact H3]. intro n. rewrite H2. unfold kept_cons.
    destruct (called con_name (tb_constraints s) n) as [a|] eqn:Ca; [|reflexivity]. cbn [has_key existsb negb]. rewrite andb_true_r.
    pose proof (has_key_dropped _ _ _ _ L Ca) as HK. destruct (is_fkey a && missing (called con_name (tb_constraints t) n)) eqn:Z.
    + apply andb_true_iff in Z. destruct Z as (Z1 & Z2). apply is_fkey_spec in Z1. apply missing_spec in Z2. rewrite (proj2 HK); [reflexivity|].
      split; [exact Z1|]. intros t' Lt'. rewrite (located_dest_one _ _ _ Lt Lt'). exact Z2.
    + destruct (has_key kd q n); [|reflexivity]. destruct (proj1 HK eq_refl) as (F & N). apply is_fkey_spec in F. rewrite F in Z.
      rewrite (N t Lt) in Z. discriminate.
  - intros q t dt [].
Qed.
Theorem keys_dropped_stage : forall x, describes src x -> runs d cur coll (map (drop_key cur) kd) x
  /\ state (in_schemas src) (fun q => exists s, located src q s) (fun _ => False) (after d cur coll (map (drop_key cur) kd) x).
Proof.
  intros x D. destruct (loop1 d cur coll (drop_key cur) dropping dropping_step kd x (dropping_start x D)) as (R & P).
  split; [exact R|]. apply dropping_end. exact P.
Qed.
End Drop_keys.

(** ** Schemas *)
Lemma kept_in_dest : forall x q dt n c, steady d cur src dest x -> db_tables x q = Some dt -> dt_constraints dt n = Some c -> foreign c ->
  exists u, located dest (target cur c) u.
Proof.
  intros x q dt n c J E Hc F. destruct (J q dt E) as (_ & K). destruct (kept_refers _ _ _ _ CR _ _ _ (K n c Hc F)) as (u & L & _). eauto.
Qed.
Section Schemas.
Context (sd sc : list bytes).
Hypothesis SDN : NoDup sd.
Hypothesis SDI : forall n, In n sd <-> in_schemas src n /\ ~ in_schemas dest n.
Hypothesis SCN : NoDup sc.
Hypothesis SCI : forall n, In n sc <-> in_schemas dest n /\ ~ in_schemas src n.
Definition dropping_schemas (l : list bytes) (x : database) : Prop :=
  incl l sd /\ NoDup l
  /\ state (fun n => in_schemas src n /\ (in_schemas dest n \/ In n l))
       (fun q => (exists s, located src q s) /\ (in_schemas dest (fst q) \/ In (fst q) l)) (fun _ => False) x.
Lemma dropping_schemas_step : forall n l x, dropping_schemas (n :: l) x ->
  allowed d cur x (QDropSchema n) /\ dropping_schemas l (effect d cur coll x (QDropSchema n)).
Proof.
  intros n l x (I0 & N & J & S & T & B0 & _). destruct (proj1 (SDI n) (I0 n (or_introl eq_refl))) as (Hs & Hd). inversion N as [|? ? N1 N2]; subst. split.
  - cbn [allowed]. split; [apply S; split; [exact Hs|right; left; reflexivity]|]. split.
    + intros q dt m c E _ Hc F Z. destruct (kept_in_dest x q dt m c J E Hc F) as (u & L). apply Hd. rewrite <- Z. exact (located_schema _ _ _ L).
    + intro Z. destruct DD; congruence.
  - split; [intros m Hm; apply I0; right; exact Hm|]. split; [exact N2|]. cbn [effect]. split; [|split; [|split; [|split]]].
    + intros q dt E. cbn in E. destruct (beqb (fst q) n); [discriminate|]. apply J. exact E.
    + intro m. cbn. destruct (beqb_spec m n) as [->|Nm].
      * split; [discriminate|]. intros (_ & [Z|Z]); contradiction.
      * rewrite S. cbn. split; [intros (Z1 & [Z2|[Z2|Z2]])|intros (Z1 & [Z2|Z2])]; auto; congruence.
    + intro q. cbn. destruct (beqb_spec (fst q) n) as [Eq|Nq].
      * rewrite Eq. split; [intros (dt & Z); discriminate|]. intros [(_ & [Z|Z])|[]]; contradiction.
      * rewrite T. cbn. split; [intros [(Z1 & [Z2|[Z2|Z2]])|[]]|intros [(Z1 & [Z2|Z2])|[]]]; auto; congruence.
    + intros q s dt (Z1 & Z2) L E. cbn in E. destruct (beqb (fst q) n); [discriminate|]. apply (B0 q s dt); auto. split; [exact Z1|]. destruct Z2; [auto|right; right; assumption].
    + intros q t dt [].
Qed.
Definition creating_schemas (l : list bytes) (x : database) : Prop :=
  incl l sc /\ NoDup l
  /\ state (fun n => in_schemas dest n /\ ~ In n l) (fun q => (exists s, located src q s) /\ in_schemas dest (fst q)) (fun _ => False) x.
Lemma creating_schemas_step : forall n l x, creating_schemas (n :: l) x ->
  allowed d cur x (QCreateSchema n) /\ creating_schemas l (effect d cur coll x (QCreateSchema n)).
Proof.
  intros n l x (I0 & N & J & S & T & B0 & _). destruct (proj1 (SCI n) (I0 n (or_introl eq_refl))) as (Hd & Hs). inversion N as [|? ? N1 N2]; subst. split.
  - cbn [allowed]. split.
    + unfold in_schemas in Hd. apply in_map_iff in Hd. destruct Hd as (s & <- & Hd). apply (proj1 (proj2 Od) s Hd).
    + destruct (db_schemas x n) eqn:Z; [|reflexivity]. apply S in Z. destruct Z as (_ & Z). exfalso. apply Z. left. reflexivity.
  - split; [intros m Hm; apply I0; right; exact Hm|]. split; [exact N2|]. cbn [effect]. split; [exact J|split; [|split; [exact T|split]]].
    + intro m. cbn. destruct (beqb_spec m n) as [->|Nm]; [tauto|]. rewrite S. cbn. split; [tauto|]. intros (Z1 & Z2). split; [exact Z1|]. intros [Z|Z]; [congruence|contradiction].
    + intros q s dt Z L E. apply (B0 q s dt); assumption.
    + intros q t dt [].
Qed.
Theorem schemas_stage : forall x, state (in_schemas src) (fun q => exists s, located src q s) (fun _ => False) x ->
  runs d cur coll (map QDropSchema sd ++ map QCreateSchema sc) x
  /\ state (in_schemas dest) (fun q => (exists s, located src q s) /\ in_schemas dest (fst q)) (fun _ => False)
       (after d cur coll (map QDropSchema sd ++ map QCreateSchema sc) x).
Proof.
  intros x ST.
  assert (DS : forall n, in_schemas src n <-> in_schemas src n /\ (in_schemas dest n \/ In n sd)).
  { intro n. rewrite SDI. split; [|tauto]. intro H. split; [exact H|]. destruct (called sc_name dest n) as [s|] eqn:E.
    - left. apply called_some in E. destruct E as (E & <-). apply in_map. exact E.
    - right. split; [exact H|]. apply (called_none_map sc_name). exact E. }
  destruct (loop1 d cur coll QDropSchema dropping_schemas dropping_schemas_step sd x) as (R1 & _ & _ & P1).
  { split; [apply incl_refl|]. split; [exact SDN|]. refine (state_ext _ _ _ _ _ _ x DS _ _ ST); [|reflexivity].
    intro q. split; [|tauto]. intros (s & L). split; [eauto|]. apply (DS (fst q)). exact (located_schema _ _ _ L). }
  destruct (loop1 d cur coll QCreateSchema creating_schemas creating_schemas_step sc (after d cur coll (map QDropSchema sd) x)) as (R2 & _ & _ & P2).
  { split; [apply incl_refl|]. split; [exact SCN|]. refine (state_ext _ _ _ _ _ _ _ _ _ _ P1); [| |reflexivity].
    - intro n. cbn. rewrite SCI. split; [intros (Z1 & [Z2|[]]); tauto|]. intros (Z1 & Z2). split; [|auto].
      destruct (called sc_name src n) as [s|] eqn:E.
      + apply called_some in E. destruct E as (E & <-). apply in_map. exact E.
      + exfalso. apply Z2. split; [exact Z1|]. apply (called_none_map sc_name). exact E.
    - intro q. cbn. tauto. }
  rewrite after_app. split; [apply runs_after; assumption|]. refine (state_ext _ _ _ _ _ _ _ _ _ _ P2); [|reflexivity|reflexivity].
  intro n. cbn. tauto.
Qed.
End Schemas.

(** ** Tables *)
Section Tables.
Context (td tc : list table).
Hypothesis TDN : NoDup (map site td).
Hypothesis TDI : forall s, In s td <-> located src (site s) s /\ nowhere dest (site s) /\ In (tb_schema s) (map sc_name dest).
Hypothesis TCN : NoDup (map site tc).
Hypothesis TCI : forall t, In t tc <-> located dest (site t) t /\ nowhere src (site t).

Lemma site_place : forall l t, orderly l -> located l (site t) t -> place cur (at_table cur t) = site t.
Proof. intros l t O L. unfold at_table. apply place_qualify. destruct (orderly_schema _ O _ _ L) as (_ & N). exact N. Qed.
Definition dropping_tables (l : list table) (x : database) : Prop :=
  incl l td /\ NoDup (map site l)
  /\ state (in_schemas dest) (fun q => (exists s, located src q s) /\ ((exists t, located dest q t) \/ In q (map site l))) (fun _ => False) x.
Lemma dropping_tables_step : forall s l x, dropping_tables (s :: l) x ->
  allowed d cur x (QDropTable (at_table cur s)) /\ dropping_tables l (effect d cur coll x (QDropTable (at_table cur s))).
Proof.
  intros s l x (I0 & N & J & S & T & B0 & _). destruct (proj1 (TDI s) (I0 s (or_introl eq_refl))) as (Ls & Nd & _).
  cbn [map] in N. inversion N as [|? ? N1 N2]; subst. pose proof (site_place _ _ Os Ls) as W.
  cbn [allowed effect]. unfold at_table_of. rewrite W. split.
  - destruct (proj2 (T (site s))) as (dt & E); [left; split; [eauto|right; left; reflexivity]|]. exists dt. split; [exact E|].
    intros p dt' m c E' _ Hc F Z. destruct (kept_in_dest x p dt' m c J E' Hc F) as (u & L). rewrite Z in L. exact (Nd u L).
  - split; [intros m Hm; apply I0; right; exact Hm|]. split; [exact N2|]. split; [apply ok_unset_table; exact J|]. split; [exact S|]. split; [|split].
    + intro q. cbn. destruct (qeqb_spec q (site s)) as [->|Nq].
      * split; [intros (dt & Z); discriminate|]. intros [(_ & [(t & Z)|Z])|[]]; [exact (False_ind _ (Nd t Z))|contradiction].
      * rewrite T. cbn. split; [intros [(Z1 & [Z2|[Z2|Z2]])|[]]|intros [(Z1 & [Z2|Z2])|[]]]; auto; congruence.
    + intros q s' dt (Z1 & Z2) L E. cbn in E. destruct (qeqb q (site s)); [discriminate|]. apply (B0 q s' dt); auto. split; [exact Z1|]. destruct Z2; [auto|right; right; assumption].
    + intros q t dt [].
Qed.

(** *** What CREATE TABLE creates *)
Lemma created_constraints_are : forall q t c, located dest q t -> (In c (created_constraints t) <-> In c (tb_constraints t) /\ ~ foreign c).
Proof.
  intros q t c L. unfold created_constraints. rewrite filter_In, andb_true_iff, !negb_true_iff. split.
  - intros (H & _ & Z). split; [exact H|]. intro F. apply is_fkey_spec in F. unfold is_fkey in F. congruence.
  - intros (H & F). split; [exact H|]. split; [apply (con_facts _ Od _ _ _ L H)|]. destruct (beqb (con_type c) FOREIGN_KEY) eqn:Z; [|reflexivity].
    exfalso. apply F. apply beqb_eq in Z. exact Z.
Qed.
Lemma all_created : forall q t, located dest q t -> created_columns t = tb_columns t.
Proof.
  intros q t L. apply filter_all. intros c Hc. destruct (CR q t L) as (_ & _ & CC & _). destruct (CC c Hc) as (G & _).
  destruct (proj2 (proj2 Od) q t L) as (_ & Ig & _). rewrite (Ig c Hc). cbn. destruct (col_generated c); [|reflexivity].
  destruct (col_expr c); [exfalso; apply G; reflexivity|reflexivity].
Qed.
Lemma with_all : forall L dt, NoDup (map con_name L) ->
  let dt' := fold_left (fun dt c => with_constraint c dt) L dt in
  (forall n, dt_columns dt' n = not_null (existsb (fun c => beqb (con_type c) PRIMARY_KEY && bmem n (con_columns c)) L) (dt_columns dt n))
  /\ (forall n, dt_constraints dt' n = match called con_name L n with Some c => Some c | None => dt_constraints dt n end)
  /\ (forall n, dt_indexes dt' n = dt_indexes dt n).
Proof.
  intro L. induction L as [|c L IH]; intros dt N; [repeat split|]. cbn [map] in N. inversion N as [|? ? N1 N2]; subst. cbn [fold_left].
  destruct (IH (with_constraint c dt) N2) as (H1 & H2 & H3). split; [|split]; intro n.
  - rewrite H1, with_constraint_columns, not_null_twice. reflexivity.
  - rewrite H2. cbn [with_constraint dt_constraints called find]. unfold put. fold (called con_name L n).
    destruct (beqb_spec n (con_name c)) as [->|Nn].
    + rewrite beqb_refl. rewrite (proj2 (called_none_map con_name _ _) N1). reflexivity.
    + destruct (beqb_spec (con_name c) n) as [Z|_]; [congruence|reflexivity].
  - rewrite H3. reflexivity.
Qed.
Lemma new_table_is : forall q t, located dest q t -> shape
  (fun n => option_map (written d coll) (called col_name (tb_columns t) n)) (called con_name (created_constraints t)) (fun _ => None) (new_table d coll t).
Proof.
  intros q t L. unfold new_table. rewrite (all_created q t L).
  destruct (with_all (created_constraints t) (DTable (fun n => option_map (written d coll) (called col_name (tb_columns t) n)) (fun _ => None) (fun _ => None))) as (H1 & H2 & H3).
  { apply NoDup_filter_map. exact (orderly_constraints _ Od _ _ L). }
  split; [|split]; intro n; [|rewrite H2; destruct (called con_name (created_constraints t) n); reflexivity|exact (H3 n)]. rewrite H1. cbn [dt_columns].
  destruct (existsb _ _) eqn:E; [|reflexivity]. destruct (called col_name (tb_columns t) n) as [b|] eqn:C; [|reflexivity]. cbn.
  apply called_some in C. destruct C as (C & <-). apply existsb_exists in E. destruct E as (k & Hk & E). apply andb_true_iff in E. destruct E as (E1 & E2).
  apply (created_constraints_are q t k L) in Hk. apply beqb_eq in E1. apply bmem_In in E2.
  pose proof (proj2 (PD q t L) k b (proj1 Hk) E1 C E2) as NN. unfold set_notnull, written. cbn. rewrite NN. reflexivity.
Qed.
Lemma readable_column : forall q t c, located dest q t -> In c (tb_columns t) -> exists x, normalize_column_type d (col_type c) = Ok x.
Proof. intros q t c (s & Hs & Ht & _) Hc. exact (RT s t c Hs Ht Hc). Qed.
Lemma new_table_ready : forall q t dt, located dest q t -> nowhere src q ->
  shape (fun n => option_map (written d coll) (called col_name (tb_columns t) n)) (called con_name (created_constraints t)) (called ix_name (tb_indexes t)) dt ->
  ready d cur coll (to_come q) t dt.
Proof.
  intros q t dt L Ns (H1 & H2 & H3).
  assert (HC : forall n c, called con_name (created_constraints t) n = Some c <-> called con_name (tb_constraints t) n = Some c /\ ~ foreign c).
  { intros n c. split; intro E.
    - apply called_some in E. destruct E as (E & <-). apply (created_constraints_are q t c L) in E. destruct E as (E & F).
      split; [apply called_in; [exact (orderly_constraints _ Od _ _ L)|exact E]|exact F].
    - destruct E as (E & F). apply called_some in E. destruct E as (E & <-). apply called_in; [apply NoDup_filter_map; exact (orderly_constraints _ Od _ _ L)|].
      apply (created_constraints_are q t c L). auto. }
  assert (TO : forall b, to_come q b) by (intros b s Z; contradiction (Ns s Z)).
  split; [|split; [|split; [|split; [|split; [|split]]]]].
  - intro n. rewrite H1. destruct (called col_name (tb_columns t) n); cbn; split; congruence.
  - intros n a b Ea Eb. rewrite H1, Eb in Ea. injection Ea as <-. apply called_some in Eb. destruct Eb as (Eb & _). apply alike_all; [|reflexivity].
    destruct (CR q t L) as (_ & _ & CC & _). destruct (CC b Eb) as (_ & C2 & C3 & _). apply alike_written; [exact (readable_column q t b L Eb)|exact C2|].
    destruct DD as [D|D]; auto.
  - intros n a Ea _. rewrite H2 in Ea. apply HC in Ea. destruct Ea; eauto.
  - intros n b Eb [K|(_ & Z)]; [|contradiction (Z (TO b))]. exists b. split.
    + rewrite H2. apply HC. split; [exact Eb|]. apply key_not_foreign. exact K.
    + split; [reflexivity|]. split; [reflexivity|]. auto.
  - intros n b Eb F _. rewrite H2. destruct (called con_name (created_constraints t) n) as [a|] eqn:Z; [|reflexivity]. exfalso. apply HC in Z.
    destruct Z as (Z1 & Z2). congruence.
  - intros _ n a b Ea Eb. rewrite H2 in Ea. apply HC in Ea. destruct Ea as (Ea & _). assert (a = b) by congruence. subst. split; reflexivity.
  - intro n. rewrite H3. reflexivity.
Qed.

Definition creating_tables (l : list table) (x : database) : Prop :=
  incl l tc /\ NoDup (map site l)
  /\ state (in_schemas dest) (fun q => (exists s, located src q s) /\ exists t, located dest q t)
       (fun q => (exists t, located dest q t) /\ nowhere src q /\ ~ In q (map site l)) x.
Lemma creating_tables_step : forall t l x, creating_tables (t :: l) x ->
  runs d cur coll (create_with_indexes cur t) x /\ creating_tables l (after d cur coll (create_with_indexes cur t) x).
Proof.
  intros t l x (I0 & N & J & S & T & B0 & R). destruct (proj1 (TCI t) (I0 t (or_introl eq_refl))) as (L & Ns).
  cbn [map] in N. inversion N as [|? ? N1 N2]; subst. pose proof (site_place _ _ Od L) as W. unfold at_table in W.
  assert (E0 : db_tables x (site t) = None).
  { destruct (db_tables x (site t)) as [dt|] eqn:E; [|reflexivity]. exfalso. destruct (proj1 (T (site t)) (ex_intro _ dt E)) as [((s & Z) & _)|(_ & _ & Z)].
    - exact (Ns s Z).
    - apply Z. left. reflexivity. }
  pose proof (orderly_constraints _ Od _ _ L) as NK. destruct (CR _ _ L) as (C1 & C2 & C3 & C4 & C5 & _).
  assert (A : allowed d cur x (QCreateTable (qualify cur (tb_schema t) (tb_name t)) t)).
  { cbn [allowed]. rewrite W. split; [apply S; exact (located_schema _ _ _ L)|]. split; [exact E0|].
    split; [apply (fresh_table d cur src dest Od CR SEP x _ t (steady_names _ _ _ _ _ J) L E0)|]. split; [exact C1|].
    rewrite (all_created _ _ L). split; [exact C2|]. split; [exact (orderly_columns _ Od _ _ L)|]. split; [apply NoDup_filter_map; exact NK|]. split.
    - intros a b Ha Hb. apply (created_constraints_are _ t _ L) in Ha, Hb. apply (proj1 (PD _ _ L)); [apply Ha|apply Hb].
    - intros c Hc. apply (created_constraints_are _ t _ L) in Hc. destruct Hc as (Hc & F). split; [apply (con_facts _ Od _ _ _ L Hc)|]. split.
      + intros D P. exact (C5 c Hc P D).
      + split; [|intro K; exact (C4 c Hc (or_introl K))].
        apply (fresh_constraint d cur src dest Od CR SEP x _ t c (steady_names _ _ _ _ _ J) L Hc). intros dt Z. congruence. }
  set (x1 := set_table x (site t) (Some (new_table d coll t))).
  assert (E1 : effect d cur coll x (QCreateTable (qualify cur (tb_schema t) (tb_name t)) t) = x1) by (cbn [effect]; rewrite W; reflexivity).
  destruct (new_table_is _ _ L) as (M1 & M2 & M3).
  assert (J1 : steady d cur src dest x1).
  { apply ok_set_table; [exact J|]. split; [split; [|split]|].
    - exists dest, t. split; [right; reflexivity|exact L].
    - intros n c Hc. rewrite M2 in Hc. apply called_some in Hc. destruct Hc as (Hc & <-). apply (created_constraints_are _ t _ L) in Hc.
      split; [reflexivity|]. left. exists dest, t, c. split; [right; reflexivity|]. destruct Hc. auto.
    - intros n i Hi. rewrite M3 in Hi. discriminate.
    - intros n c Hc F. rewrite M2 in Hc. apply called_some in Hc. destruct Hc as (Hc & _). apply (created_constraints_are _ t _ L) in Hc. destruct Hc. contradiction. }
  assert (LD : leads d cur coll src dest (map (fun i => QCreateIndex (qualify cur (ix_schema i) (ix_table i)) i false) (tb_indexes t)) (site t) x1
    (ready d cur coll (to_come (site t)) t)).
  { eapply leads_imp.
    - eapply (create_indexes_lead d cur coll src dest Od CR SEP (site t) t L (tb_indexes t) (fun i => qualify cur (ix_schema i) (ix_table i)) false x1 (new_table d coll t)
        (fun n => option_map (written d coll) (called col_name (tb_columns t) n)) (called con_name (created_constraints t)) (fun _ => None)).
      + intros i Hi. destruct (proj2 (proj2 Od) _ _ L) as (_ & _ & _ & OI). destruct (OI i Hi) as (_ & Z).
        destruct (orderly_schema _ Od _ _ L) as (_ & NE). rewrite <- Z in *. apply place_qualify. exact NE.
      + exact (orderly_indexes _ Od _ _ L).
      + intros i Hi. auto.
      + intros n Hn. unfold in_columns in Hn. apply (called_is col_name) in Hn. destruct Hn as (b & Hb). rewrite Hb. discriminate.
      + exact J1.
      + apply set_table_at.
      + split; [exact M1|split; [exact M2|exact M3]].
    - intros dt _ (G1 & G2 & G3). apply new_table_ready; [exact L|exact Ns|]. split; [exact G1|]. split; [exact G2|]. intro n. rewrite G3, updated_end.
      destruct (called ix_name (tb_indexes t) n); reflexivity. }
  destruct LD as (R1 & dt & E2 & EL & J2 & RD). unfold create_with_indexes. change (after d cur coll (?a :: ?b) x) with (after d cur coll b (effect d cur coll x a)).
  rewrite E1. split; [split; [exact A|rewrite E1; exact R1]|].
  assert (EL' : elsewhere (site t) x (after d cur coll (map (fun i => QCreateIndex (qualify cur (ix_schema i) (ix_table i)) i false) (tb_indexes t)) x1)).
  { eapply elsewhere_trans; [apply set_table_elsewhere|exact EL]. }
  destruct EL' as (ES & ET). split; [intros m Hm; apply I0; right; exact Hm|]. split; [exact N2|]. split; [exact J2|]. split; [|split; [|split]].
  - intro n. rewrite ES. apply S.
  - intro q. destruct (qeqb_spec q (site t)) as [->|Nq].
    + split; [intros _; right; split; [eauto|split; assumption]|]. eauto.
    + rewrite (ET q Nq), T. cbn [map In]. split; (intros [Z|(Z1 & Z2 & Z3)]; [left; exact Z|right; split; [exact Z1|split; [exact Z2|]]]); [tauto|].
      intros [Z|Z]; [congruence|contradiction].
  - intros q s dt' (Z1 & Z2) Ls E. destruct (qeqb_spec q (site t)) as [->|Nq]; [contradiction (Ns s Ls)|]. rewrite (ET q Nq) in E. apply (B0 q s dt'); auto.
  - intros q t' dt' (Z1 & Z2 & Z3) Lt' E. destruct (qeqb_spec q (site t)) as [->|Nq].
    + rewrite E2 in E. injection E as <-. rewrite (located_dest_one _ _ _ L Lt'). exact RD.
    + rewrite (ET q Nq) in E. apply (R q t' dt'); auto. split; [exact Z1|]. split; [exact Z2|]. cbn. intros [Z|Z]; [congruence|contradiction].
Qed.

Theorem tables_stage : forall x, state (in_schemas dest) (fun q => (exists s, located src q s) /\ in_schemas dest (fst q)) (fun _ => False) x ->
  let l := map (fun t => QDropTable (at_table cur t)) td ++ flat_map (create_with_indexes cur) tc in
  runs d cur coll l x
  /\ state (in_schemas dest) (fun q => (exists s, located src q s) /\ exists t, located dest q t)
       (fun q => (exists t, located dest q t) /\ nowhere src q) (after d cur coll l x).
Proof.
  intros x ST l. unfold l.
  destruct (loop1 d cur coll (fun t => QDropTable (at_table cur t)) dropping_tables dropping_tables_step td x) as (R1 & _ & _ & P1).
  { split; [apply incl_refl|]. split; [exact TDN|]. refine (state_ext _ _ _ _ _ _ x _ _ _ ST); [reflexivity| |reflexivity].
    intro q. split.
    - intros ((s & L) & H). split; [eauto|]. destruct (somewhere dest q Od) as [Nw|Z]; [right|left; exact Z].
      pose proof (orderly_at _ Os _ _ L) as Eq. apply in_map_iff. exists s. split; [symmetry; exact Eq|]. apply TDI. unfold site. rewrite <- Eq.
      split; [exact L|]. split; [exact Nw|]. rewrite Eq in H. exact H.
    - intros (H & [(t & L)|Z]).
      + split; [exact H|]. exact (located_schema _ _ _ L).
      + split; [exact H|]. apply in_map_iff in Z. destruct Z as (s & <- & Z). apply TDI in Z. apply Z. }
  destruct (loop d cur coll (create_with_indexes cur) creating_tables creating_tables_step tc (after d cur coll (map (fun t => QDropTable (at_table cur t)) td) x)) as (R2 & _ & _ & P2).
  { split; [apply incl_refl|]. split; [exact TCN|]. refine (state_ext _ _ _ _ _ _ _ _ _ _ P1); [reflexivity| |].
    - intro q. cbn. tauto.
    - intro q. split; [intros []|]. intros ((t & L) & Ns & Z). apply Z. pose proof (orderly_at _ Od _ _ L) as Eq. apply in_map_iff. exists t. split; [symmetry; exact Eq|].
      apply TCI. unfold site. rewrite <- Eq. auto. }
  rewrite after_app. split; [apply runs_after; assumption|]. refine (state_ext _ _ _ _ _ _ _ _ _ _ P2); [reflexivity|reflexivity|].
  intro q. cbn. tauto.
Qed.
End Tables.
End Stages.
