(** Proofs about reading table structs back: the checks after all fields of a table are read. *)
From Coq Require Import Lia Permutation.
From Verif Require Import GoStr GoStrFacts ModelCatalog ModelCache SpecCache CacheFacts CopyFacts ModelDdl NormFacts
  ModelModifier ModifierFacts ModelDiff ModelDiffSql DiffLookup ModelGoTag ModelStructs SpecStructs ModelParser ParserFacts ParserTables
  SpecSame StructsText GoText ReadKeys WriteKeys ReadColumns ReadTable.

Local Arguments PRIMARY_KEY : simpl never.
Local Arguments FOREIGN_KEY : simpl never.
Local Arguments UNIQUE : simpl never.

Definition at_name (n : bytes) (f : column -> column) (l : list column) : list column :=
  map (fun x => if beqb (col_name x) n then f x else x) l.
Lemma change_at_name : forall n f l i x, NoDup (map col_name l) -> nth_error l i = Some x -> col_name x = n ->
  change_nth i f l = at_name n f l.
Proof.
  intros n f l i x N H E. apply nth_error_same. intro j. unfold at_name. rewrite nth_error_map. destruct (Nat.eq_dec i j) as [<-|D].
  - rewrite (change_nth_at _ _ _ _ H), H. cbn. rewrite E, beqb_refl. reflexivity.
  - rewrite change_nth_other by exact D. destruct (nth_error l j) as [y|] eqn:Hy; [|reflexivity]. cbn.
    destruct (beqb_spec (col_name y) n) as [En|_]; [|reflexivity]. exfalso. apply D.
    apply (nodup_nth (map col_name l) i j n N); [rewrite <- E|rewrite <- En]; apply nth_map; assumption.
Qed.

(** What a check may do to a parser: other columns, everything else as before. *)
Definition checks (p p' : parser) (cs : list column) : Prop :=
  pa_table p' = with_columns (pa_table p) cs /\ pa_explicit p' = pa_explicit p /\ pa_reports p' = pa_reports p
  /\ pinv (pa_cache p') (pa_table p').
Definition whole (p : parser) : Prop :=
  pinv (pa_cache p) (pa_table p) /\ NoDup (map col_name (tb_columns (pa_table p)))
  /\ Forall (fun c => col_ignore c = false) (tb_columns (pa_table p)).
Lemma whole_has : forall p n, whole p -> In n (map col_name (tb_columns (pa_table p))) -> has_col (pa_table p) n.
Proof.
  intros p n (_ & _ & G) H. apply in_map_iff in H as (c & E & H). exists c. rewrite Forall_forall in G. auto.
Qed.
Lemma whole_get : forall p n, whole p -> In n (map col_name (tb_columns (pa_table p))) ->
  exists i x, get_column (pa_cache p) (pa_table p) n = Ok (Some i) /\ nth_error (tb_columns (pa_table p)) i = Some x /\ col_name x = n.
Proof.
  intros p n W H. pose proof (whole_has p n W H) as Hh. destruct W as (I & N & G).
  destruct (get_column_total _ _ n I) as (r & R). pose proof (proj1 (get_column_has _ _ _ _ I R) Hh) as Nr.
  destruct r as [i|]; [|congruence]. destruct (get_column_some _ _ _ _ I R) as (x & Hx & Ex & _). eauto.
Qed.
Lemma on_checks : forall p n f i x, whole p -> nth_error (tb_columns (pa_table p)) i = Some x -> col_name x = n ->
  (forall c, col_name (f c) = col_name c) -> (forall c, col_ignore (f c) = col_ignore c) ->
  checks p (on_columns i f p) (at_name n f (tb_columns (pa_table p))).
Proof.
  intros p n f i x (I & N & G) H E F1 F2. split.
  - unfold on_columns. cbn [pa_table with_table]. rewrite (change_at_name n f _ i x N H E). reflexivity.
  - split; [reflexivity|]. split; [reflexivity|]. exact (s_inv _ _ _ (c_step _ _ (check_columns_on p i f I F1 F2))).
Qed.
Lemma with_columns_same : forall t, with_columns t (tb_columns t) = t.
Proof. intros []. reflexivity. Qed.
Lemma same_checks : forall p, whole p -> checks p p (tb_columns (pa_table p)).
Proof. intros p (I & _). split; [symmetry; apply with_columns_same|auto]. Qed.
Lemma none_reported : forall p, whole p -> checks p (reports [] p) (tb_columns (pa_table p)).
Proof.
  intros p (I & _). split; [symmetry; apply with_columns_same|]. split; [reflexivity|]. split; [cbn; apply app_nil_r|exact I].
Qed.
Lemma columns_there : forall p l, whole p -> incl l (map col_name (tb_columns (pa_table p))) -> check_columns p l = Ok [].
Proof.
  intros p l W H. destruct (check_columns_ok p l (proj1 W)) as (cs & E & F). rewrite E.
  rewrite (proj2 F); [reflexivity|]. apply Forall_forall. intros n Hn. apply whole_has; auto.
Qed.
Lemma checks_whole : forall p p' f, whole p -> checks p p' (map f (tb_columns (pa_table p))) ->
  (forall c, col_name (f c) = col_name c) -> (forall c, col_ignore (f c) = col_ignore c) -> whole p'.
Proof.
  intros p p' f (I & N & G) (T & _ & _ & I') F1 F2. split; [exact I'|]. rewrite T. cbn [tb_columns with_columns].
  rewrite map_map. rewrite (map_ext _ col_name F1). split; [exact N|].
  apply Forall_forall. intros c Hc. apply in_map_iff in Hc as (x & <- & Hx). rewrite F2. rewrite Forall_forall in G. auto.
Qed.

Section Checks.
Variables (d : dialect) (s n : bytes) (ex : list key).
(** One key of one column. *)
Definition keyed_by (k : constraint) (x : column) : column :=
  match con_columns k with
  | [m] =>
      if beqb (col_name x) m then
        if beqb (con_type k) PRIMARY_KEY then
          let x := with_pkey true x in
          if dialect_eqb d SQLite && equal_fold (col_type x) (B"INT") && negb (kmem [s; n; m] ex) then with_type (B"INTEGER") x else x
        else if beqb (con_type k) UNIQUE then with_unique true x else x
      else x
  | _ => x
  end.
Definition key_there (p : parser) (k : constraint) : Prop :=
  con_ignore k = false /\ incl (con_columns k) (map col_name (tb_columns (pa_table p)))
  /\ (con_type k = FOREIGN_KEY -> con_refcolumns k <> []).
Lemma keyed_name : forall k x, col_name (keyed_by k x) = col_name x /\ col_ignore (keyed_by k x) = col_ignore x.
Proof.
  intros k x. unfold keyed_by. destruct (con_columns k) as [|m [|]]; auto. destruct (beqb (col_name x) m); auto.
  destruct (beqb (con_type k) PRIMARY_KEY); [destruct (_ && _); auto|]. destruct (beqb (con_type k) UNIQUE); auto.
Qed.
Lemma map_same : forall {A} (f : A -> A) l, (forall a, f a = a) -> map f l = l.
Proof. intros A f l H. rewrite <- (map_id l) at 2. apply map_ext. exact H. Qed.
Lemma one_key : forall p k, whole p -> tb_schema (pa_table p) = s -> tb_name (pa_table p) = n -> pa_explicit p = ex -> key_there p k ->
  exists p', check_constraint d p k = Ok p' /\ checks p p' (map (keyed_by k) (tb_columns (pa_table p))).
Proof.
  intros p k W Es En Ex (Ig & Hc & Hr). unfold check_constraint. rewrite Ig, (columns_there p _ W Hc). cbn [bindr].
  assert (Q : (forall x, keyed_by k x = x) -> map (keyed_by k) (tb_columns (pa_table p)) = tb_columns (pa_table p)) by (intro X; apply map_same; exact X).
  destruct (con_columns k) as [|m [|m' l]] eqn:Ec.
  - exists (reports [] p). split; [reflexivity|]. rewrite Q; [apply none_reported; exact W|]. intro x. unfold keyed_by. rewrite Ec. reflexivity.
  - destruct (whole_get p m W) as (i & x & G & Hx & Nx); [apply Hc; left; reflexivity|]. rewrite G. cbn [bindr].
    unfold keyed_by in *. rewrite Ec in *. rewrite Es, En, Ex.
    destruct (beqb (con_type k) PRIMARY_KEY).
    { eexists. split; [reflexivity|]. apply (on_checks p m _ i x W Hx Nx); intro c; destruct (_ && _); reflexivity. }
    destruct (beqb (con_type k) UNIQUE).
    { eexists. split; [reflexivity|]. apply (on_checks p m _ i x W Hx Nx); intro c; reflexivity. }
    exists p. split; [|rewrite Q; [apply same_checks; exact W|intro y; destruct (beqb (col_name y) m); reflexivity]].
    destruct (beqb_spec (con_type k) FOREIGN_KEY) as [T|T]; [|reflexivity]. specialize (Hr T). destruct (con_refcolumns k); [congruence|reflexivity].
  - exists (reports [] p). split; [reflexivity|]. rewrite Q; [apply none_reported; exact W|]. intro y. unfold keyed_by. rewrite Ec. reflexivity.
Qed.
Definition keyed_all (ks : list constraint) (x : column) : column := fold_left (fun x k => keyed_by k x) ks x.
Lemma all_keyed : forall ks p, whole p -> tb_schema (pa_table p) = s -> tb_name (pa_table p) = n -> pa_explicit p = ex ->
  Forall (key_there p) ks ->
  exists p', foldr (check_constraint d) p ks = Ok p' /\ checks p p' (map (keyed_all ks) (tb_columns (pa_table p))) /\ whole p'.
Proof.
  induction ks as [|k ks IH]; intros p W Es En Ex F.
  - exists p. split; [reflexivity|]. split; [|exact W]. rewrite map_same; [apply same_checks; exact W|reflexivity].
  - inversion F as [|? ? Hk F']. destruct (one_key p k W Es En Ex Hk) as (p1 & E1 & C1). cbn [foldr]. rewrite E1. cbn [bindr].
    pose proof (checks_whole p p1 _ W C1 (fun c => proj1 (keyed_name k c)) (fun c => proj2 (keyed_name k c))) as W1.
    destruct C1 as (T1 & X1 & R1 & I1). destruct (IH p1 W1) as (p2 & E2 & (T2 & X2 & R2 & I2) & W2).
    + rewrite T1. exact Es.
    + rewrite T1. exact En.
    + congruence.
    + eapply Forall_impl; [|exact F']. intros k' (A & B & C). split; [exact A|]. split; [|exact C]. rewrite T1. cbn [tb_columns with_columns].
      rewrite map_map. rewrite (map_ext _ col_name (fun c => proj1 (keyed_name k c))). exact B.
    + exists p2. split; [exact E2|]. split; [|exact W2]. split; [|split; [congruence|split; [congruence|exact I2]]].
      rewrite T2, T1. cbn [tb_columns with_columns]. rewrite map_map. reflexivity.
Qed.
Lemma all_indexed : forall xs p, whole p -> Forall (fun x => ix_ignore x = false /\ incl (ix_columns x) (map col_name (tb_columns (pa_table p)))) xs ->
  exists p', foldr check_index p xs = Ok p' /\ checks p p' (tb_columns (pa_table p)).
Proof.
  induction xs as [|x xs IH]; intros p W F; [exists p; split; [reflexivity|apply same_checks; exact W]|].
  inversion F as [|? ? (Ig & Hc) F']; subst. cbn [foldr]. unfold check_index at 1. rewrite Ig, (columns_there p _ W Hc). cbn [bindr].
  destruct (IH (reports [] p)) as (p' & E & (T & X & R & I)); [exact W|exact F'|]. exists p'. split; [exact E|].
  split; [exact T|]. split; [exact X|]. split; [rewrite R; cbn; apply app_nil_r|exact I].
Qed.

(** The columns of the primary key. *)
Definition required_by (m : bytes) (x : column) : column :=
  if beqb (col_name x) m then if dialect_eqb d SQLite && beqb (col_type x) (B"INTEGER") && col_pkey x then x else with_notnull true x else x.
Lemma required_name : forall m x, col_name (required_by m x) = col_name x /\ col_ignore (required_by m x) = col_ignore x.
Proof. intros m x. unfold required_by. destruct (beqb (col_name x) m); auto. destruct (_ && _); auto. Qed.
Definition required_all (l : list bytes) (x : column) : column := fold_left (fun x m => required_by m x) l x.
Lemma all_required : forall l p, whole p -> incl l (map col_name (tb_columns (pa_table p))) ->
  exists p', foldr (require_column d) p l = Ok p' /\ checks p p' (map (required_all l) (tb_columns (pa_table p))).
Proof.
  induction l as [|m l IH]; intros p W F.
  - exists p. split; [reflexivity|]. rewrite map_same; [apply same_checks; exact W|reflexivity].
  - cbn [foldr]. unfold require_column at 1. destruct (whole_get p m W) as (i & x & G & Hx & Nx); [apply F; left; reflexivity|]. rewrite G. cbn [bindr].
    set (p1 := on_columns i _ p).
    assert (C1 : checks p p1 (map (required_by m) (tb_columns (pa_table p)))) by (apply (on_checks p m _ i x W Hx Nx); intro c; destruct (_ && _); reflexivity).
    pose proof (checks_whole p p1 _ W C1 (fun c => proj1 (required_name m c)) (fun c => proj2 (required_name m c))) as W1.
    clearbody p1. destruct C1 as (T1 & X1 & R1 & I1). destruct (IH p1 W1) as (p2 & E2 & (T2 & X2 & R2 & I2)).
    + intros y Hy. rewrite T1. cbn [tb_columns with_columns]. rewrite map_map, (map_ext _ col_name (fun c => proj1 (required_name m c))). apply F. right. exact Hy.
    + exists p2. split; [exact E2|]. split; [|split; [congruence|split; [congruence|exact I2]]].
      rewrite T2, T1. cbn [tb_columns with_columns]. rewrite map_map. reflexivity.
Qed.

(** *** What is left of a column *)
Record finished (sole pk : bool) (x x' : column) : Prop := Finished {
  fi_name : col_name x' = col_name x;
  fi_type : col_type x' = settled d sole (col_type x) (kmem [s; n; col_name x] ex);
  fi_notnull : col_notnull x' = col_notnull x || pk && negb (dialect_eqb d SQLite && beqb (col_type x') (B"INTEGER") && (col_pkey x || sole));
  fi_default : col_default x' = col_default x;
  fi_auto : col_autoincrement x' = col_autoincrement x;
  fi_identity : col_identity x' = col_identity x;
  fi_onupdate : col_onupdate x' = col_onupdate x;
  fi_generated : col_generated x' = col_generated x;
  fi_collation : col_collation x' = col_collation x;
  fi_ignore : col_ignore x' = col_ignore x;
  fi_pkey : col_pkey x' = col_pkey x || sole
}.
Definition sole_of (c : bytes) (k : constraint) : bool :=
  beqb (con_type k) PRIMARY_KEY && match con_columns k with [m] => beqb c m | _ => false end.
Lemma settled_twice : forall a b ty e, settled d b (settled d a ty e) e = settled d (a || b) ty e.
Proof.
  intros a b ty e. unfold settled. destruct (dialect_eqb d SQLite); [|reflexivity]. destruct e; [rewrite !andb_false_r; reflexivity|].
  cbn [negb andb]. rewrite !andb_true_r. destruct a; cbn [orb andb].
  - destruct (equal_fold ty (B"INT")) eqn:Q; [|rewrite Q, andb_false_r; reflexivity]. destruct b; reflexivity.
  - reflexivity.
Qed.
Lemma keyed_finished : forall k x, finished (sole_of (col_name x) k) false x (keyed_by k x).
Proof.
  intros k x. unfold sole_of, keyed_by. destruct (con_columns k) as [|m [|m' l]]; try (rewrite andb_false_r; constructor; try reflexivity;
    cbn; rewrite ?orb_false_r; try reflexivity; unfold settled; rewrite andb_false_r; reflexivity).
  destruct (beqb_spec (col_name x) m) as [Em|Em].
  - subst m. rewrite andb_true_r. destruct (beqb (con_type k) PRIMARY_KEY).
    + cbn [col_type with_pkey]. constructor; try (destruct (dialect_eqb d SQLite && _ && _); reflexivity).
      * unfold settled. rewrite andb_true_r. destruct (dialect_eqb d SQLite && equal_fold (col_type x) (B"INT") && negb _); reflexivity.
      * cbn [andb]. rewrite orb_false_r. destruct (dialect_eqb d SQLite && _ && _); reflexivity.
      * rewrite orb_true_r. destruct (dialect_eqb d SQLite && _ && _); reflexivity.
    + destruct (beqb (con_type k) UNIQUE); constructor; try reflexivity; cbn; rewrite ?orb_false_r; try reflexivity; unfold settled; rewrite andb_false_r; reflexivity.
  - rewrite andb_false_r. constructor; try reflexivity; cbn; rewrite ?orb_false_r; try reflexivity; unfold settled; rewrite andb_false_r; reflexivity.
Qed.
Lemma all_keyed_finished : forall ks x, finished (existsb (sole_of (col_name x)) ks) false x (keyed_all ks x).
Proof.
  intros ks. induction ks as [|k ks IH]; intro x.
  - cbn. constructor; try reflexivity; cbn; rewrite ?orb_false_r; try reflexivity; unfold settled; rewrite andb_false_r; reflexivity.
  - cbn [keyed_all fold_left existsb]. pose proof (keyed_finished k x) as [A1 A2 A3 A4 A5 A6 A7 A8 A9 A10 A11].
    pose proof (IH (keyed_by k x)) as [B1 B2 B3 B4 B5 B6 B7 B8 B9 B10 B11]. fold (keyed_all ks (keyed_by k x)). rewrite A1 in *.
    constructor; try congruence.
    + rewrite B2, A2. apply settled_twice.
    + rewrite B3, A3. cbn [andb]. rewrite !orb_false_r. reflexivity.
    + rewrite B11, A11. symmetry. apply orb_assoc.
Qed.
Lemma required_fields : forall l x, let x' := required_all l x in
  col_name x' = col_name x /\ col_type x' = col_type x /\ col_pkey x' = col_pkey x /\
  col_notnull x' = col_notnull x || bmem (col_name x) l && negb (dialect_eqb d SQLite && beqb (col_type x) (B"INTEGER") && col_pkey x)
  /\ col_default x' = col_default x /\ col_autoincrement x' = col_autoincrement x /\ col_identity x' = col_identity x
  /\ col_onupdate x' = col_onupdate x /\ col_generated x' = col_generated x /\ col_collation x' = col_collation x /\ col_ignore x' = col_ignore x.
Proof.
  intros l. induction l as [|m l IH]; intro x; cbn [required_all fold_left].
  - cbn. rewrite orb_false_r. repeat split; reflexivity.
  - fold (required_all l (required_by m x)). destruct (IH (required_by m x)) as (B1 & B2 & B3 & B4 & B5 & B6 & B7 & B8 & B9 & B10 & B11).
    assert (A : col_name (required_by m x) = col_name x /\ col_type (required_by m x) = col_type x /\ col_pkey (required_by m x) = col_pkey x
      /\ col_notnull (required_by m x) = col_notnull x || beqb (col_name x) m && negb (dialect_eqb d SQLite && beqb (col_type x) (B"INTEGER") && col_pkey x)
      /\ col_default (required_by m x) = col_default x /\ col_autoincrement (required_by m x) = col_autoincrement x /\ col_identity (required_by m x) = col_identity x
      /\ col_onupdate (required_by m x) = col_onupdate x /\ col_generated (required_by m x) = col_generated x /\ col_collation (required_by m x) = col_collation x
      /\ col_ignore (required_by m x) = col_ignore x).
    { unfold required_by. destruct (beqb (col_name x) m); cbn [andb]; [|rewrite orb_false_r; repeat split; reflexivity].
      destruct (dialect_eqb d SQLite && beqb (col_type x) (B"INTEGER") && col_pkey x); cbn; rewrite ?orb_false_r, ?orb_true_r; repeat split; reflexivity. }
    destruct A as (A1 & A2 & A3 & A4 & A5 & A6 & A7 & A8 & A9 & A10 & A11). cbv zeta in *.
    rewrite A1, A2, A3, A4 in B4. repeat split; try congruence. rewrite B4.
    change (bmem (col_name x) (m :: l)) with (beqb (col_name x) m || bmem (col_name x) l).
    destruct (col_notnull x), (beqb (col_name x) m), (bmem (col_name x) l), (negb (dialect_eqb d SQLite && beqb (col_type x) (B"INTEGER") && col_pkey x)); reflexivity.
Qed.
Lemma both_finished : forall ks l x, finished (existsb (sole_of (col_name x)) ks) (bmem (col_name x) l) x (required_all l (keyed_all ks x)).
Proof.
  intros ks l x. destruct (all_keyed_finished ks x) as [A1 A2 A3 A4 A5 A6 A7 A8 A9 A10 A11].
  destruct (required_fields l (keyed_all ks x)) as (B1 & B2 & B3 & B4 & B5 & B6 & B7 & B8 & B9 & B10 & B11).
  constructor; try congruence. rewrite B4, A3, A1, A11, B2. cbn [andb]. rewrite orb_false_r. reflexivity.
Qed.

(** *** All checks *)
Definition primary_columns (ks : list constraint) : list bytes := flat_map (fun k => if beqb (con_type k) PRIMARY_KEY then con_columns k else []) ks.
Lemma checks_done : forall flt p0 fields p, foldr (parse_field flt d) p0 fields = Ok p ->
  whole p -> tb_schema (pa_table p) = s -> tb_name (pa_table p) = n -> pa_explicit p = ex ->
  Forall (key_there p) (tb_constraints (pa_table p)) ->
  Forall (fun x => ix_ignore x = false /\ incl (ix_columns x) (map col_name (tb_columns (pa_table p)))) (tb_indexes (pa_table p)) ->
  (forall k k', In k (tb_constraints (pa_table p)) -> In k' (tb_constraints (pa_table p)) -> con_type k = PRIMARY_KEY -> con_type k' = PRIMARY_KEY -> con_columns k = con_columns k') ->
  exists p' cs, fill_table flt d p0 fields = Ok p' /\ pa_table p' = with_columns (pa_table p) cs /\ pa_explicit p' = ex /\ pa_reports p' = pa_reports p
    /\ Forall2 (fun x x' => finished (existsb (sole_of (col_name x)) (tb_constraints (pa_table p)))
                              (bmem (col_name x) (primary_columns (tb_constraints (pa_table p)))) x x') (tb_columns (pa_table p)) cs.
Proof.
  intros flt p0 fields p E W Es En Ex Fk Fx U. unfold fill_table. rewrite E. cbn [bindr]. set (ks := tb_constraints (pa_table p)) in *.
  destruct (all_keyed ks p W Es En Ex Fk) as (p1 & E1 & (T1 & X1 & R1 & I1) & W1). rewrite E1. cbn [bindr].
  assert (N1 : map col_name (tb_columns (pa_table p1)) = map col_name (tb_columns (pa_table p))).
  { rewrite T1. cbn [tb_columns with_columns]. rewrite map_map. apply map_ext. intro x. apply (fi_name _ _ _ _ (all_keyed_finished ks x)). }
  replace (tb_indexes (pa_table p1)) with (tb_indexes (pa_table p)) by (rewrite T1; reflexivity).
  destruct (all_indexed (tb_indexes (pa_table p)) p1 W1) as (p2 & E2 & (T2 & X2 & R2 & I2)).
  { rewrite N1. exact Fx. }
  rewrite E2. cbn [bindr]. rewrite with_columns_same in T2.
  assert (W2 : whole p2) by (unfold whole in *; rewrite T2 in *; tauto).
  unfold require_key, get_primary_key. pose proof (proj2 (proj2 (proj2 I2))) as K. unfold pk_ok in K.
  assert (Ek : tb_constraints (pa_table p2) = ks) by (rewrite T2, T1; reflexivity). rewrite Ek in *.
  assert (Q : exists l, (forall m, In m l <-> In m (primary_columns ks)) /\
    bindr (at_pos con_ignore ks (ca_pkeys (pa_cache p2) [tb_schema (pa_table p2); tb_name (pa_table p2)])) (fun r =>
      match r with None => Ok p2 | Some i => match nth_error ks i with None => Panic | Some c => foldr (require_column d) p2 (con_columns c) end end)
    = foldr (require_column d) p2 l).
  { destruct (ca_pkeys (pa_cache p2) [tb_schema (pa_table p2); tb_name (pa_table p2)]) as [i|]; cbn [at_pos bindr].
    - destruct K as (a & Ha & Ta). rewrite Ha. rewrite Forall_forall in Fk. pose proof (nth_error_In _ _ Ha) as Hin. destruct (Fk a Hin) as (Ig & _).
      rewrite Ig. cbn [bindr]. rewrite Ha. exists (con_columns a). split; [|reflexivity]. intro m. unfold primary_columns. rewrite in_flat_map. split.
      + intro Hm. exists a. split; [exact Hin|]. rewrite Ta. exact Hm.
      + intros (b & Hb & Hm). destruct (beqb_spec (con_type b) PRIMARY_KEY) as [Tb|]; [|contradiction]. rewrite (U a b Hin Hb Ta Tb). exact Hm.
    - exists []. split; [|reflexivity]. intro m. split; [intros []|]. intro Hm. unfold primary_columns in Hm. apply in_flat_map in Hm as (b & Hb & Hm).
      destruct (beqb_spec (con_type b) PRIMARY_KEY) as [Tb|]; [|contradiction]. exfalso. exact (K b Hb Tb). }
  destruct Q as (l & Hl & ->). destruct (all_required l p2 W2) as (p3 & E3 & (T3 & X3 & R3 & I3)).
  { intros m Hm. rewrite T2, N1. apply Hl in Hm. unfold primary_columns in Hm. apply in_flat_map in Hm as (b & Hb & Hm).
    destruct (beqb (con_type b) PRIMARY_KEY); [|contradiction]. rewrite Forall_forall in Fk. apply (Fk b Hb). exact Hm. }
  rewrite E3. exists p3. eexists. split; [reflexivity|]. split; [rewrite T3, T2, T1; reflexivity|]. split; [congruence|]. split; [congruence|].
  cbn [tb_columns with_columns]. rewrite map_map. clear - Hl. induction (tb_columns (pa_table p)) as [|x cs IH]; [constructor|].
  cbn [map]. constructor; [|exact IH]. replace (bmem (col_name x) (primary_columns ks)) with (bmem (col_name x) l); [apply both_finished|].
  apply eq_iff_eq_true. rewrite !bmem_In. apply Hl.
Qed.
End Checks.
