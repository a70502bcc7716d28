(** Reading the catalog of a database to which a migration has been applied. *)
From Coq Require Import Lia.
From Verif Require Import GoStr GoStrFacts ModelCatalog ModelCache CacheFacts ModelDdl ModelDiff ModelDiffSql SpecDiff DiffLookup DiffFacts
  DiffPlan DiffSegments DiffCreate DiffOrder SpecApply ApplyFacts ApplyNames ApplyAlter ApplyPair ApplyPlan ApplyTables ApplyRun.

(** ** Statements that keep everything in its place *)
Definition con_at (q : qname) (c : constraint) : Prop := con_name c <> [] /\ con_ignore c = false /\ (con_schema c, con_table c) = q.
Definition ix_at (q : qname) (i : index) : Prop := ix_ignore i = false /\ (ix_schema i, ix_table i) = q.
Definition good (cur : bytes) (s : stmt) : Prop :=
  match s with
  | QCreateTable q t => forall c, In c (created_constraints t) -> con_at (place cur q) c
  | QCreateIndex q i _ => ix_at (place cur q) i
  | QAddConstraint q c _ | QAddUsingIndex q c => con_at (place cur q) c
  | QAddCheck q n _ => n <> []
  | _ => True
  end.
(** The names of columns, constraints and indexes that a statement can create. *)
Definition creates (s : stmt) : list bytes :=
  match s with
  | QCreateTable _ t => map col_name (created_columns t) ++ map con_name (created_constraints t)
  | QCreateIndex _ i _ => [ix_name i]
  | QAddColumn _ c | QModifyColumn _ c => [col_name c]
  | QAddCheck _ n _ => [n]
  | QAddConstraint _ c _ | QAddUsingIndex _ c | QAlterConstraint _ c => [con_name c]
  | _ => []
  end.
Definition in_place (N : list bytes) (q : qname) (dt : dtable) : Prop :=
  (forall n, dt_columns dt n <> None -> In n N)
  /\ (forall n c, dt_constraints dt n = Some c -> In n N /\ con_name c = n /\ con_at q c)
  /\ (forall n i, dt_indexes dt n = Some i -> In n N /\ ix_name i = n /\ ix_at q i).
Lemma in_place_column : forall N q dt n o, in_place N q dt -> In n N -> in_place N q (put_column n o dt).
Proof.
  intros N q dt n o (H1 & H2 & H3) Hn. split; [|split; [exact H2|exact H3]]. intros m. cbn. unfold put. destruct (beqb_spec m n) as [->|_]; [auto|apply H1].
Qed.
Lemma in_place_drop_column : forall N q dt n, in_place N q dt -> in_place N q (put_column n None dt).
Proof.
  intros N q dt n (H1 & H2 & H3). split; [|split; [exact H2|exact H3]]. intros m. cbn. unfold put. destruct (beqb m n); [congruence|apply H1].
Qed.
Lemma in_place_change : forall N q dt n f, in_place N q dt -> in_place N q (change_column n f dt).
Proof.
  intros N q dt n f H. unfold change_column. destruct (dt_columns dt n) eqn:E; [|exact H]. apply in_place_column; [exact H|]. apply H. rewrite E. discriminate.
Qed.
Lemma in_place_constraint : forall N q dt n c, in_place N q dt -> In n N -> con_name c = n -> con_at q c -> in_place N q (put_constraint n (Some c) dt).
Proof.
  intros N q dt n c (H1 & H2 & H3) Hn E A. split; [exact H1|]. split; [|exact H3]. intros m k. cbn. unfold put. destruct (beqb_spec m n) as [->|_]; [|apply H2].
  intro Z. injection Z as <-. auto.
Qed.
Lemma in_place_drop_constraint : forall N q dt n, in_place N q dt -> in_place N q (put_constraint n None dt).
Proof.
  intros N q dt n (H1 & H2 & H3). split; [exact H1|]. split; [|exact H3]. intros m k. cbn. unfold put. destruct (beqb m n); [discriminate|apply H2].
Qed.
Lemma in_place_index : forall N q dt n i, in_place N q dt -> In n N -> ix_name i = n -> ix_at q i -> in_place N q (put_index n (Some i) dt).
Proof.
  intros N q dt n c (H1 & H2 & H3) Hn E A. split; [exact H1|]. split; [exact H2|]. intros m k. cbn. unfold put. destruct (beqb_spec m n) as [->|_]; [|apply H3].
  intro Z. injection Z as <-. auto.
Qed.
Lemma in_place_drop_index : forall N q dt n, in_place N q dt -> in_place N q (put_index n None dt).
Proof.
  intros N q dt n (H1 & H2 & H3). split; [exact H1|]. split; [exact H2|]. intros m k. cbn. unfold put. destruct (beqb m n); [discriminate|apply H3].
Qed.
Lemma in_place_with : forall N q dt c, in_place N q dt -> In (con_name c) N -> con_at q c -> in_place N q (with_constraint c dt).
Proof.
  intros N q dt c H Hn A. destruct (in_place_constraint N q dt (con_name c) c H Hn eq_refl A) as (_ & H2 & H3). split; [|split; [exact H2|exact H3]].
  intro n. rewrite with_constraint_columns. intro Z. apply H. intro E. apply Z. rewrite E. unfold not_null. destruct (_ && _); reflexivity.
Qed.
Lemma in_place_all : forall N q L dt, in_place N q dt -> (forall c, In c L -> In (con_name c) N /\ con_at q c) ->
  in_place N q (fold_left (fun dt c => with_constraint c dt) L dt).
Proof.
  intros N q L. induction L as [|c L IH]; intros dt H A; [exact H|]. cbn [fold_left]. apply IH.
  - destruct (A c (or_introl eq_refl)) as (A1 & A2). apply in_place_with; assumption.
  - intros k Hk. apply A. right. exact Hk.
Qed.
Definition placed (N : list bytes) (x : database) : Prop := all_tables_ok (in_place N) x.
Lemma placed_change : forall N x q f, placed N x -> (forall dt, db_tables x q = Some dt -> in_place N q dt -> in_place N q (f dt)) -> placed N (change_at x q f).
Proof.
  intros N x q f H F. unfold change_at. destruct (db_tables x q) as [dt|] eqn:E; [|exact H]. apply ok_set_table; [exact H|]. apply F; [reflexivity|apply H; exact E].
Qed.
Lemma placed_step : forall d cur coll N x s, placed N x -> good cur s -> incl (creates s) N -> placed N (effect d cur coll x s).
Proof.
  intros d cur coll N x s H G I0. destruct s; cbn [effect good creates] in *; try exact H;
    try (apply placed_change; [exact H|]; intros dt _ HD;
      first [ apply in_place_change; exact HD | apply in_place_drop_column; exact HD | apply in_place_drop_constraint; exact HD | apply in_place_drop_index; exact HD
            | apply in_place_column; [exact HD|apply I0; left; reflexivity] ]).
  - (* schemas *) intros q dt E. cbn in E. destruct (beqb (fst q) n); [discriminate|]. apply H. exact E.
  - apply ok_unset_table. exact H.
  - apply ok_set_table; [exact H|]. unfold new_table. apply in_place_all.
    + split; [|split]; cbn; try discriminate. intros m Z. apply I0. apply in_or_app. left. apply called_is. destruct (called col_name _ m) as [c|]; [eauto|contradiction Z; reflexivity].
    + intros c Hc. split; [|apply G; exact Hc]. apply I0. apply in_or_app. right. apply in_map. exact Hc.
  - apply placed_change; [exact H|]. intros dt _ HD. apply in_place_index; [exact HD|apply I0; left; reflexivity|reflexivity|exact G].
  - apply placed_change; [exact H|]. intros dt _ HD. apply in_place_constraint; [exact HD|apply I0; left; reflexivity|reflexivity|].
    split; [exact G|]. split; [reflexivity|]. cbn. destruct (place cur _); reflexivity.
  - apply placed_change; [exact H|]. intros dt _ HD. apply in_place_with; [exact HD|apply I0; left; reflexivity|exact G].
  - apply placed_change; [exact H|]. intros dt _ HD. apply in_place_with; [apply in_place_drop_index; exact HD|apply I0; left; reflexivity|exact G].
  - apply placed_change; [exact H|]. intros dt _ HD. destruct (dt_constraints dt (con_name c)) as [k|] eqn:E; [|exact HD].
    destruct HD as (H1 & H2 & H3). destruct (H2 _ _ E) as (K1 & K2 & K3). apply in_place_constraint; [exact (conj H1 (conj H2 H3))|exact K1|exact K2|exact K3].
Qed.
Lemma placed_after : forall d cur coll N l x, placed N x -> (forall s, In s l -> good cur s /\ incl (creates s) N) -> placed N (after d cur coll l x).
Proof.
  intros d cur coll N l. induction l as [|s l IH]; intros x H A; [exact H|]. unfold after. cbn [fold_left]. apply IH.
  - destruct (A s (or_introl eq_refl)). apply placed_step; assumption.
  - intros s' Hs. apply A. right. exact Hs.
Qed.

(** ** Reading *)
Definition column_of (q : qname) (n : bytes) (c : dcolumn) : column :=
  Column (fst q) (snd q) n (dc_type c) [] [] [] [] false (dc_notnull c) false false false (dc_identity c) (dc_default c) false false [] false (dc_collation c) false.
Definition options {A C} (f : A -> option C) (l : list A) : list C := flat_map (fun a => match f a with Some c => [c] | None => [] end) l.
Definition table_of (N : list bytes) (q : qname) (dt : dtable) : table :=
  Table (fst q) (snd q) [] false (options (fun n => option_map (column_of q n) (dt_columns dt n)) N) (options (dt_constraints dt) N) (options (dt_indexes dt) N) false.
Lemma options_in : forall {A C} (f : A -> option C) l c, In c (options f l) <-> exists a, In a l /\ f a = Some c.
Proof.
  intros A C f l c. unfold options. rewrite in_flat_map. split.
  - intros (a & Ha & H). exists a. destruct (f a) as [e|]; [|contradiction]. destruct H as [->|[]]. auto.
  - intros (a & Ha & E). exists a. rewrite E. split; [exact Ha|left; reflexivity].
Qed.
Lemma options_nodup : forall {C} (name : C -> bytes) (f : bytes -> option C) l, NoDup l -> (forall n c, f n = Some c -> name c = n) -> NoDup (map name (options f l)).
Proof.
  intros C name f l N H. induction l as [|n l IH]; [constructor|]. inversion N as [|? ? N1 N2]; subst. unfold options in *. cbn [flat_map]. rewrite map_app.
  apply NoDup_join; [|apply IH; exact N2|].
  - destruct (f n); cbn; [constructor; [intros []|constructor]|constructor].
  - intros m H1 H2. destruct (f n) as [c|] eqn:E; [|contradiction]. destruct H1 as [<-|[]]. rewrite (H _ _ E) in H2. apply N1.
    apply in_map_iff in H2. destruct H2 as (k & Ek & Hk). apply (options_in f) in Hk. destruct Hk as (a & Ha & Fa). rewrite (H _ _ Fa) in Ek. subst a. exact Ha.
Qed.
Lemma options_called : forall {C} (name : C -> bytes) (f : bytes -> option C) l n, NoDup l -> (forall n c, f n = Some c -> name c = n) -> (f n <> None -> In n l) ->
  called name (options f l) n = f n.
Proof.
  intros C name f l n N H S. destruct (f n) as [c|] eqn:E.
  - rewrite <- (H _ _ E). apply called_in; [apply options_nodup; assumption|]. apply options_in. exists n. split; [apply S; discriminate|exact E].
  - apply called_none. intros c Hc En. apply options_in in Hc. destruct Hc as (a & _ & Fa). rewrite (H _ _ Fa) in En. congruence.
Qed.
Lemma table_of_shows : forall N q dt, NoDup N -> in_place N q dt -> shows (table_of N q dt) dt.
Proof.
  intros N q dt ND (H1 & H2 & H3) n. cbn [tb_columns tb_constraints tb_indexes table_of]. split; [|split].
  - rewrite (options_called col_name (fun m => option_map (column_of q m) (dt_columns dt m)) N n ND).
    + destruct (dt_columns dt n) as [[]|]; reflexivity.
    + intros m c E. destruct (dt_columns dt m); [|discriminate]. injection E as <-. reflexivity.
    + intro Z. apply H1. intro E. apply Z. rewrite E. reflexivity.
  - symmetry. apply options_called; [exact ND|intros m c E; apply (H2 m c E)|]. intro Z. destruct (dt_constraints dt n) eqn:E; [apply (H2 _ _ E)|congruence].
  - symmetry. apply options_called; [exact ND|intros m c E; apply (H3 m c E)|]. intro Z. destruct (dt_indexes dt n) eqn:E; [apply (H3 _ _ E)|congruence].
Qed.

Definition empty_table : dtable := DTable (fun _ => None) (fun _ => None) (fun _ => None).
(** The catalog with the tables of [l], as they are in [x]. *)
Definition read_table (N : list bytes) (x : database) (s : schema) (t : table) : table :=
  table_of N (sc_name s, tb_name t) (match db_tables x (sc_name s, tb_name t) with Some dt => dt | None => empty_table end).
Definition read (N : list bytes) (x : database) (l : list schema) : list schema :=
  map (fun s => Schema (sc_name s) (map (read_table N x s) (sc_tables s)) false) l.
Lemma read_located : forall N x l q u, located (read N x l) q u <-> exists s t, In s l /\ In t (sc_tables s) /\ q = (sc_name s, tb_name t) /\ u = read_table N x s t.
Proof.
  intros N x l q u. unfold located, read. split.
  - intros (s' & Hs & Hu & ->). apply in_map_iff in Hs. destruct Hs as (s & <- & Hs). cbn in *. apply in_map_iff in Hu. destruct Hu as (t & <- & Ht).
    exists s, t. auto.
  - intros (s & t & Hs & Ht & -> & ->). exists (Schema (sc_name s) (map (read_table N x s) (sc_tables s)) false). split; [apply in_map_iff; exists s; auto|].
    split; [cbn; apply in_map; exact Ht|reflexivity].
Qed.
Section Read.
Context (d : dialect) (cur coll : bytes) (N : list bytes) (x : database) (l : list schema).
Hypothesis ND : NoDup N.
Hypothesis O : orderly l.
Hypothesis P : placed N x.
Hypothesis A : agrees d cur coll x l.
Lemma read_at : forall s t, In s l -> In t (sc_tables s) -> exists dt, db_tables x (sc_name s, tb_name t) = Some dt /\ read_table N x s t = table_of N (sc_name s, tb_name t) dt
  /\ in_place N (sc_name s, tb_name t) dt /\ agrees_table d cur coll dt t.
Proof.
  intros s t Hs Ht. pose proof (located_in l s t Hs Ht) as L. destruct A as (_ & A2 & A3). destruct (proj2 (A2 _) (ex_intro _ t L)) as (dt & E).
  exists dt. split; [exact E|]. split; [unfold read_table; rewrite E; reflexivity|]. split; [apply P; exact E|exact (A3 _ _ _ L E)].
Qed.
Lemma read_describes : describes (read N x l) x.
Proof.
  destruct A as (A1 & A2 & A3). split; [|split].
  - intro n. rewrite A1. unfold read. rewrite map_map. reflexivity.
  - intro q. rewrite A2. split.
    + intros (t & s & Hs & Ht & ->). exists (read_table N x s t). apply read_located. exists s, t. auto.
    + intros (u & L). apply read_located in L. destruct L as (s & t & Hs & Ht & -> & _). exists t. apply located_in; assumption.
  - intros q u dt L E. apply read_located in L. destruct L as (s & t & Hs & Ht & -> & ->). destruct (read_at s t Hs Ht) as (dt' & E' & -> & IP & _).
    rewrite E in E'. injection E' as <-. apply table_of_shows; assumption.
Qed.
Lemma read_orderly : orderly (read N x l).
Proof.
  pose proof (orderly_tables _ O) as (U1 & U2). split; [split; [split|]|split].
  - unfold read. rewrite map_map. exact U1.
  - intros s' Hs. apply in_map_iff in Hs. destruct Hs as (s & <- & Hs). cbn. split.
    + rewrite map_map. exact (proj1 (U2 s Hs)).
    + intros u Hu. apply in_map_iff in Hu. destruct Hu as (t & <- & Ht). reflexivity.
  - intros s' u Hs Hu. apply in_map_iff in Hs. destruct Hs as (s & <- & Hs). cbn in Hu. apply in_map_iff in Hu. destruct Hu as (t & <- & Ht).
    destruct (read_at s t Hs Ht) as (dt & _ & -> & (I1 & I2 & I3) & _). cbn. split; [|split]; apply options_nodup; try exact ND.
    + intros m c E. destruct (dt_columns dt m); [|discriminate]. injection E as <-. reflexivity.
    + intros m c E. apply (I2 m c E).
    + intros m c E. apply (I3 m c E).
  - intros s' Hs. apply in_map_iff in Hs. destruct Hs as (s & <- & Hs). cbn. split; [apply (proj1 (proj2 O) s Hs)|reflexivity].
  - intros q u L. apply read_located in L. destruct L as (s & t & Hs & Ht & -> & ->). destruct (read_at s t Hs Ht) as (dt & _ & -> & (I1 & I2 & I3) & _).
    split; [reflexivity|]. split; [|split].
    + intros c Hc. cbn in Hc. apply options_in in Hc. destruct Hc as (m & _ & E). destruct (dt_columns dt m); [|discriminate]. injection E as <-. reflexivity.
    + intros c Hc. cbn in Hc. apply options_in in Hc. destruct Hc as (m & _ & E). destruct (I2 _ _ E) as (_ & _ & C1 & C2 & C3). auto.
    + intros i Hi. cbn in Hi. apply options_in in Hi. destruct Hi as (m & _ & E). apply (I3 _ _ E).
Qed.
Lemma read_readable : readable_types d (read N x l).
Proof.
  intros s' u c Hs Hu Hc. apply in_map_iff in Hs. destruct Hs as (s & <- & Hs). cbn in Hu. apply in_map_iff in Hu. destruct Hu as (t & <- & Ht).
  destruct (read_at s t Hs Ht) as (dt & _ & E & _ & (A1 & A2 & _)). rewrite E in Hc. cbn in Hc. apply options_in in Hc. destruct Hc as (m & _ & F).
  destruct (dt_columns dt m) as [k|] eqn:K; [|discriminate]. injection F as <-. cbn.
  destruct (called col_name (tb_columns t) m) as [b|] eqn:Eb; [|apply A1 in Eb; congruence].
  destruct (A2 m k b K Eb) as ((y & Y & _) & _). exists y. exact Y.
Qed.
End Read.

(** ** All statements are good *)
Section Good.
Context (d : dialect) (flt : bytes -> bool) (cs cd : catalog).
Let cur := ct_current cs.
Let src := ct_schemas cs.
Let dest := ct_schemas cd.
Hypothesis DD : d = MySQL \/ d = Postgres.
Hypothesis Os : orderly src.
Hypothesis Od : orderly dest.

Lemma con_good : forall q t c, located dest q t -> In c (tb_constraints t) -> con_at q c /\ place cur (at_owner cur c) = q.
Proof.
  intros q t c L Hc. destruct (proj2 (proj2 Od) q t L) as (_ & _ & O3 & _). destruct (O3 c Hc) as (C1 & C2 & C3). split; [exact (conj C2 (conj C1 C3))|].
  unfold at_owner. rewrite place_qualify; [exact C3|]. destruct (orderly_schema _ Od _ _ L) as (_ & Z). rewrite <- C3 in Z. exact Z.
Qed.
Lemma ix_good : forall q t i, located dest q t -> In i (tb_indexes t) -> ix_at q i /\ place cur (qualify cur (ix_schema i) (ix_table i)) = q.
Proof.
  intros q t i L Hi. destruct (proj2 (proj2 Od) q t L) as (_ & _ & _ & O4). destruct (O4 i Hi) as (C1 & C2). split; [exact (conj C1 C2)|].
  rewrite place_qualify; [exact C2|]. destruct (orderly_schema _ Od _ _ L) as (_ & Z). rewrite <- C2 in Z. exact Z.
Qed.
Lemma table_good : forall q t, located dest q t -> place cur (qualify cur (tb_schema t) (tb_name t)) = q.
Proof.
  intros q t L. destruct (orderly_schema _ Od _ _ L) as (Z1 & Z2). rewrite place_qualify; [symmetry; apply (orderly_at _ Od); exact L|]. rewrite <- Z1. exact Z2.
Qed.
Lemma check_not_empty : forall c, check_name c <> [].
Proof.
  intros c Z. unfold check_name in Z. apply app_eq_nil in Z. destruct Z as (_ & Z). apply app_eq_nil in Z. destruct Z as (Z & _). discriminate Z.
Qed.
Lemma column_good : forall w a b r s, alter_column_postgres flt cs w a b = Ok r -> In s (fst r) -> good cur s.
Proof.
  intros w a b r s H Hs. unfold alter_column_postgres in H.
  destruct (normalize_column_type Postgres (col_type a)) as [ta| |]; try discriminate H. cbn [bindr] in H.
  destruct (normalize_column_type Postgres (col_type b)) as [tb| |]; try discriminate H. cbn [bindr] in H.
  pose proof (check_not_empty b) as NE.
  repeat match type of H with context [if ?b then _ else _] => destruct b end; injection H as <-; cbn in Hs;
    repeat match type of Hs with _ \/ _ => destruct Hs as [<-|Hs]; [first [exact I|exact NE]|] end; contradiction Hs.
Qed.
Lemma alter_good : forall q s t l st, located src q s -> located dest q t -> alter_code d flt cs (the_alter d cs true s t) = Ok l -> In st l -> good cur st.
Proof.
  intros q s t l st Ls Lt H Hs. pose proof (table_good q t Lt) as W.
  assert (IX : forall i, In i (only_ixs t s) -> In i (tb_indexes t)) by (intros i Hi; apply (only_ixs_in dest src q t s i Od Os Lt Ls) in Hi; apply Hi).
  assert (CN : forall c, In c (filter is_key (only_cons t s)) -> In c (tb_constraints t)).
  { intros c Hc. apply filter_In in Hc. destruct Hc as (Hc & _). apply (only_cons_in dest src q t s c Od Os Lt Ls) in Hc. apply Hc. }
  assert (CM : forall c, In c (added_mysql s t) -> In c (tb_constraints t)).
  { intros c Hc. unfold added_mysql in Hc. apply in_flat_map in Hc. destruct Hc as (k & Hk & Z).
    destruct (con_ignore k); [contradiction|]. destruct (find_con s (con_name k)); match type of Z with context [if ?b then _ else _] => destruct b end;
      try contradiction; destruct Z as [<-|[]]; exact Hk. }
  destruct DD as [D|D]; rewrite D in H; cbn [alter_code the_alter] in H.
  - injection H as <-. unfold alter_stmts_mysql, the_alter_mysql in Hs.
    cbn [al_schema al_table al_drop_constraints al_drop_indexes al_drop_columns al_add_columns al_alter_columns al_create_indexes al_add_constraints] in Hs.
    rewrite !in_app_iff, !in_map_iff in Hs. fold cur in Hs.
    destruct Hs as [(k & <- & _)|[(k & <- & _)|[(k & <- & _)|[(k & <- & _)|[(k & <- & _)|[(k & <- & Hk)|(k & <- & Hk)]]]]]]; try exact I.
    + cbn [good]. rewrite W. apply (ix_good q t k Lt). apply IX. exact Hk.
    + cbn [good]. rewrite W. apply (con_good q t k Lt). apply CM. exact Hk.
  - unfold alter_steps_postgres, the_alter_postgres in H.
    cbn [al_schema al_table al_drop_constraints al_drop_indexes al_drop_columns al_add_columns al_alter_columns al_alter_constraints al_validate al_create_indexes al_add_constraints] in H.
    destruct (flatr _ _) as [rs| |] eqn:F in H; try discriminate H. cbn [bindr fst] in H. injection H as <-. fold cur in Hs, F.
    apply in_app_or in Hs. destruct Hs as [Hs|Hs].
    + rewrite !in_app_iff, !in_map_iff in Hs.
      destruct Hs as [(k & <- & _)|[(k & <- & _)|[(k & <- & _)|[(k & <- & _)|[Hs|(k & <- & _)]]]]]; try exact I.
      apply in_flat_map in Hs. destruct Hs as (r & Hr & Hs). apply (proj1 (flatr_inv _ _ _ F _)) in Hr. destruct Hr as ((a & b) & x & _ & E & Hx).
      destruct (alter_column_postgres flt cs _ a b) as [y| |] eqn:A; try discriminate E. cbn [bindr] in E. injection E as <-. destruct Hx as [<-|[]].
      exact (column_good _ _ _ _ _ A Hs).
    + apply in_flat_map in Hs. destruct Hs as (sp & Hsp & Hs). rewrite !in_app_iff in Hsp. destruct Hsp as [Hsp|[Hsp|Hsp]].
      * unfold in_file in Hsp. destruct (none _); [contradiction|]. destruct Hsp as [<-|[]]. cbn [ps_stmts] in Hs. apply in_flat_map in Hs.
        destruct Hs as (c & _ & [<-|[<-|[<-|[]]]]); exact I.
      * apply in_map_iff in Hsp. destruct Hsp as (i & <- & Hi). destruct Hs as [<-|[]]. cbn [good].
        destruct (ix_good q t i Lt (IX i Hi)) as (Z1 & Z2). rewrite Z2. exact Z1.
      * apply in_flat_map in Hsp. destruct Hsp as (c & Hc & [<-|[<-|[]]]); destruct Hs as [<-|[]]; cbn [good]; destruct (con_good q t c Lt (CN c Hc)) as (Z1 & Z2).
        -- rewrite Z2. split; [reflexivity|]. apply Z1.
        -- rewrite W. exact Z1.
Qed.
Theorem migration_good : forall prefix files ws, readable_types d src -> readable_types d dest -> (d = Postgres -> one_owner src /\ one_owner dest) ->
  results d flt prefix cs cd true = Ok (files, ws) -> forall st, In st (forward files) -> good cur st.
Proof.
  intros prefix files ws RS RD OW H st Hst.
  destruct (statements_are d flt prefix cs cd files ws DD Os Od RS RD OW H) as (kd & sd & sc & td & tc & alts & blocks & EF & _ & _ & _ & _ & (_ & T4) & HA & (_ & B2)).
  rewrite EF, !in_app_iff, !in_map_iff in Hst. clear EF.
  destruct Hst as [(k & <- & _)|[(k & <- & _)|[(k & <- & _)|[(k & <- & _)|[Hst|[Hst|Hst]]]]]]; try exact I.
  - apply in_flat_map in Hst. destruct Hst as (t & Ht & Hst). apply T4 in Ht. destruct Ht as (L & _). destruct Hst as [<-|Hst].
    + cbn [good]. intros c Hc. fold cur. rewrite (table_good _ _ L). apply (con_good _ _ c L). unfold created_constraints in Hc. destruct (tb_sql t); apply filter_In in Hc || idtac; tauto.
    + apply in_map_iff in Hst. destruct Hst as (i & <- & Hi). cbn [good]. fold cur. destruct (ix_good _ _ i L Hi) as (Z1 & Z2). rewrite Z2. exact Z1.
  - apply (proj1 (flatr_inv _ _ _ HA st)) in Hst. destruct Hst as (a & y & Ha & E & Hy). apply in_flat_map in Ha. destruct Ha as ((s & t) & Hp & Ha).
    cbn [fst snd] in Ha. apply (old_tables_are src dest Os Od s t) in Hp. destruct Hp as (Ls & Lt).
    unfold recorded in Ha. destruct (_ && _) in Ha; [contradiction|]. cbn [flat_map ch_alter app] in Ha. destruct Ha as [<-|[]].
    exact (alter_good _ s t y st Ls Lt E Hy).
  - apply in_flat_map in Hst. destruct Hst as (b & Hb & Hst). unfold key_block in Hst. apply in_app_or in Hst. destruct Hst as [Hst|Hst].
    + apply in_map_iff in Hst. destruct Hst as (c & <- & Hc). cbn [good].
      assert (L : left_out dest src c) by (apply B2; apply in_flat_map; exists b; auto). destruct L as (q & t & L & Z & _).
      destruct (con_good q t c L Z) as (Z1 & Z2). fold cur. rewrite Z2. exact Z1.
    + destruct (snd b); [|contradiction]. apply in_map_iff in Hst. destruct Hst as (c & <- & _). exact I.
Qed.
End Good.

(** ** After the migration *)
Definition names_in (l : list schema) : list bytes :=
  flat_map (fun s => flat_map (fun t => map col_name (tb_columns t) ++ map con_name (tb_constraints t) ++ map ix_name (tb_indexes t)) (sc_tables s)) l.
Lemma described_placed : forall l x N, orderly l -> describes l x -> incl (names_in l) N -> placed N x.
Proof.
  intros l x N O (_ & D2 & D3) I0 q dt E. destruct (proj1 (D2 q)) as (t & L); [eauto|]. pose proof (D3 q t dt L E) as SH.
  assert (NI : forall n, In n (map col_name (tb_columns t) ++ map con_name (tb_constraints t) ++ map ix_name (tb_indexes t)) -> In n N).
  { intros n Hn. apply I0. destruct L as (s & Hs & Ht & _). apply in_flat_map. exists s. split; [exact Hs|]. apply in_flat_map. exists t. auto. }
  destruct (proj2 (proj2 O) q t L) as (_ & _ & O3 & O4). split; [|split].
  - intros n Z. destruct (SH n) as (S1 & _). apply NI. apply in_or_app. left. rewrite S1 in Z. destruct (called col_name (tb_columns t) n) as [c|] eqn:C; [|contradiction Z; reflexivity].
    apply called_some in C. destruct C as (C & <-). apply in_map. exact C.
  - intros n c Z. destruct (SH n) as (_ & S2 & _). rewrite S2 in Z. apply called_some in Z. destruct Z as (Hc & <-). split; [|split; [reflexivity|]].
    + apply NI. apply in_or_app. right. apply in_or_app. left. apply in_map. exact Hc.
    + destruct (O3 c Hc) as (C1 & C2 & C3). exact (conj C2 (conj C1 C3)).
  - intros n c Z. destruct (SH n) as (_ & _ & S3). rewrite S3 in Z. apply called_some in Z. destruct Z as (Hc & <-). split; [|split; [reflexivity|]].
    + apply NI. apply in_or_app. right. apply in_or_app. right. apply in_map. exact Hc.
    + exact (O4 c Hc).
Qed.
(** There is a catalog that describes the database after the migration. *)
Theorem can_be_read : forall d flt prefix cs cd files ws x, d = MySQL \/ d = Postgres -> suitable d flt cs cd ->
  results d flt prefix cs cd true = Ok (files, ws) -> describes (ct_schemas cs) x ->
  exists l, orderly l /\ readable_types d l /\ describes l (after d (ct_current cs) (ct_collation cs) (forward files) x).
Proof.
  intros d flt prefix cs cd files ws x DD SU H D. destruct (migration_runs d flt cs cd DD SU prefix files ws x H D) as (_ & A).
  set (y := after _ _ _ _ x) in *. set (N := nodup (list_eq_dec Ascii.ascii_dec) (names_in (ct_schemas cs) ++ flat_map creates (forward files))).
  pose proof SU as ((Os & Od) & _ & _ & (RS & RD) & _ & _ & _ & _ & _ & PG).
  assert (ND : NoDup N) by apply NoDup_nodup.
  assert (IN : forall n, In n (names_in (ct_schemas cs) ++ flat_map creates (forward files)) -> In n N) by (intros n Hn; apply nodup_In; exact Hn).
  assert (P : placed N y).
  { apply placed_after.
    - apply (described_placed (ct_schemas cs)); [exact Os|exact D|]. intros n Hn. apply IN. apply in_or_app. left. exact Hn.
    - intros s Hs. split.
      + refine (migration_good d flt cs cd DD Os Od prefix files ws RS RD _ H s Hs). intro E. destruct (PG E) as (_ & _ & O1 & O2). auto.
      + intros n Hn. apply IN. apply in_or_app. right. apply in_flat_map. exists s. auto. }
  exists (read N y (ct_schemas cd)). split; [|split].
  - exact (read_orderly d _ _ N y _ ND Od P A).
  - exact (read_readable d _ _ N y _ P A).
  - exact (read_describes d _ _ N y _ ND P A).
Qed.

(** ** The database of a catalog *)
Definition as_table (t : table) : dtable :=
  DTable (fun n => option_map stored (called col_name (tb_columns t) n)) (called con_name (tb_constraints t)) (called ix_name (tb_indexes t)).
Definition as_database (l : list schema) : database :=
  Database (fun n => bmem n (map sc_name l))
    (fun q => match called sc_name l (fst q) with
              | Some s => option_map as_table (called tb_name (sc_tables s) (snd q))
              | None => None
              end).
Lemma as_database_at : forall l q t, unique_tables l -> located l q t -> db_tables (as_database l) q = Some (as_table t).
Proof.
  intros l q t (U1 & U2) (s & Hs & Ht & ->). cbn [as_database db_tables fst snd]. rewrite (called_in sc_name l s U1 Hs).
  rewrite (called_in tb_name (sc_tables s) t (proj1 (U2 s Hs)) Ht). reflexivity.
Qed.
Theorem as_database_described : forall l, orderly l -> describes l (as_database l).
Proof.
  intros l O. pose proof (orderly_tables _ O) as U. split; [|split].
  - intro n. cbn. apply bmem_In.
  - intro q. split.
    + intros (dt & E). cbn in E. destruct (called sc_name l (fst q)) as [s|] eqn:S1; [|discriminate]. destruct (called tb_name (sc_tables s) (snd q)) as [t|] eqn:S2; [|discriminate].
      apply called_some in S1, S2. destruct S1 as (H1 & H2), S2 as (H3 & H4). exists t. exists s. split; [exact H1|]. split; [exact H3|]. rewrite H2, H4. destruct q; reflexivity.
    + intros (t & L). exists (as_table t). apply as_database_at; assumption.
  - intros q t dt L E. rewrite (as_database_at l q t U L) in E. injection E as <-. intro n. repeat split.
Qed.
