(** What is left of a table of the source that the destination has, too. *)
From Coq Require Import Lia.
From Verif Require Import GoStr GoStrFacts TrimFacts DdlFacts ModelCatalog ModelCache CacheFacts ModelDdl ModelDiff ModelDiffSql SpecDiff DiffLookup DiffFacts
  SpecApply ApplyFacts ApplyNames ApplyAlter.

(** ** Columns that are alike *)
Lemma space_upper : forall c, is_space (to_upper_c c) = is_space c.
Proof. intros [[] [] [] [] [] [] [] []]; reflexivity. Qed.
Lemma trim_left_upper : forall s, trim_left (to_upper s) = to_upper (trim_left s).
Proof.
  intro s. induction s as [|c s IH]; [reflexivity|]. cbn [to_upper map trim_left]. rewrite space_upper.
  destruct (is_space c); [exact IH|reflexivity].
Qed.
Lemma trim_space_upper : forall s, trim_space (to_upper s) = to_upper (trim_space s).
Proof.
  intro s. unfold trim_space, trim_right. rewrite trim_left_upper. unfold to_upper. rewrite <- map_rev. fold (to_upper (rev (trim_left s))).
  rewrite trim_left_upper. unfold to_upper. rewrite map_rev. reflexivity.
Qed.
Lemma type_upper : forall d s, normalize_column_type d (to_upper s) = normalize_column_type d s.
Proof. intros d s. unfold normalize_column_type, split_type. rewrite trim_space_upper, to_upper_idem. reflexivity. Qed.

(** All but NOT NULL. *)
Definition alike_but (d : dialect) (coll : bytes) (a : dcolumn) (b : column) : Prop :=
  (exists x, normalize_column_type d (dc_type a) = Ok x /\ normalize_column_type d (col_type b) = Ok x)
  /\ normalize_column_default d (dc_default a) = normalize_column_default d (col_default b)
  /\ (dc_identity a = [] <-> col_identity b = [])
  /\ (let name c := match c with [] => coll | _ => c end in name (dc_collation a) = name (col_collation b)).
Lemma alike_all : forall d coll a b, alike_but d coll a b -> dc_notnull a = col_notnull b -> alike d coll a b.
Proof. intros d coll a b (A1 & A2 & A3 & A4) N. exact (conj A1 (conj A2 (conj N (conj A3 A4)))). Qed.
Lemma alike_notnull : forall d coll a b v, alike_but d coll a b -> alike_but d coll (set_notnull v a) b.
Proof. intros d coll a b v H. exact H. Qed.
Lemma alike_written : forall d coll b, (exists x, normalize_column_type d (col_type b) = Ok x) -> col_domain b = [] ->
  (d = Postgres \/ d = SQLServer \/ col_identity b = []) -> alike_but d coll (written d coll b) b.
Proof.
  intros d coll b (x & X) D I. split; [|split; [reflexivity|split]].
  - exists x. split; [|exact X]. cbn [written dc_type]. rewrite D. destruct (col_enum b); [exact X|]. rewrite type_upper. exact X.
  - cbn [written dc_identity]. destruct I as [->|[->|E]]; [reflexivity|reflexivity|]. rewrite E. destruct d; reflexivity.
  - cbn [written dc_collation]. destruct (beqb_spec (col_collation b) coll) as [E|]; [|reflexivity]. rewrite E. destruct coll; reflexivity.
Qed.
Lemma teqb_eq : forall a b, teqb a b = true -> a = b.
Proof.
  intros [[a1 a2] a3] [[b1 b2] b3] H. cbn in H. rewrite !andb_true_iff, !beqb_eq in H. destruct H as ((-> & ->) & ->). reflexivity.
Qed.
Lemma alike_stored : forall d coll a b, (exists x, normalize_column_type d (col_type a) = Ok x) -> (exists x, normalize_column_type d (col_type b) = Ok x) ->
  differs d coll a b = false -> alike_but d coll (stored a) b.
Proof.
  intros d coll a b (x & X) (y & Y) D. unfold differs in D. rewrite !orb_false_iff, !negb_false_iff in D. destruct D as ((((D1 & D2) & _) & D4) & D5).
  split; [|split; [|split]].
  - apply teqb_eq in D1. unfold norm in D1. rewrite X, Y in D1. exists x. cbn. rewrite X, Y, D1. auto.
  - apply beqb_eq in D2. exact D2.
  - cbn. destruct (col_identity a), (col_identity b); cbn in D4; try discriminate; split; congruence.
  - apply beqb_eq in D5. cbn. unfold or_default in D5. destruct (col_collation a), (col_collation b); exact D5.
Qed.

(** ** Lists of columns *)
Lemma join_zero : forall a b, (forall n, In n a -> n <> [] /\ ~ In (ascii_of_nat 0) n) -> (forall n, In n b -> n <> [] /\ ~ In (ascii_of_nat 0) n) ->
  join zero a = join zero b -> a = b.
Proof.
  assert (E : forall x y, (forall n, In n (x :: y) -> n <> [] /\ ~ In (ascii_of_nat 0) n) -> join zero (x :: y) <> []).
  { intros x y H Z. destruct (H x (or_introl eq_refl)) as (N & _). destruct x as [|c x]; [congruence|]. destruct y; discriminate. }
  intros a b Ha Hb J. destruct a as [|x a]; destruct b as [|y b].
  - reflexivity.
  - exfalso. apply (E y b Hb). symmetry. exact J.
  - exfalso. apply (E x a Ha). exact J.
  - rewrite <- (split_byte_join (ascii_of_nat 0) (x :: a)), <- (split_byte_join (ascii_of_nat 0) (y :: b)).
    + unfold zero in J. rewrite J. reflexivity.
    + discriminate.
    + apply Forall_forall. intros n Hn. apply Hb. exact Hn.
    + discriminate.
    + apply Forall_forall. intros n Hn. apply Ha. exact Hn.
Qed.

(** ** Lookups in parts of lists *)
Lemma called_sub : forall {A} (name : A -> bytes) (L l : list A) (P : A -> bool) n, NoDup (map name l) ->
  (forall c, In c L <-> In c l /\ P c = true) ->
  called name L n = match called name l n with Some a => if P a then Some a else None | None => None end.
Proof.
  intros A name L l P n N H. destruct (called name l n) as [a|] eqn:E.
  - apply called_some in E. destruct E as (Ha & <-). destruct (P a) eqn:Pa.
    + destruct (called name L (name a)) as [b|] eqn:F.
      * apply called_some in F. destruct F as (Hb & F). f_equal. apply H in Hb. eapply NoDup_map_inj_on; [exact N|apply Hb|exact Ha|exact F].
      * exfalso. apply (proj1 (called_none name _ _) F a); [apply H; auto|reflexivity].
    + apply called_none. intros b Hb F. apply H in Hb. destruct Hb as (Hb & Pb).
      assert (b = a) by (eapply NoDup_map_inj_on; eassumption). congruence.
  - apply called_none. intros b Hb F. apply H in Hb. apply (proj1 (called_none name _ _) E b (proj1 Hb) F).
Qed.

Definition missing {A} (o : option A) : bool := match o with Some _ => false | None => true end.
Lemma missing_spec : forall {A} (o : option A), missing o = true <-> o = None.
Proof. intros A [a|]; cbn; split; congruence. Qed.

(** ** The state of a table before it is altered *)
Definition kept_cons (s t : table) (n : bytes) : option constraint :=
  match called con_name (tb_constraints s) n with
  | Some a => if is_fkey a && missing (called con_name (tb_constraints t) n) then None else Some a
  | None => None
  end.
Definition old_state (s t : table) (dt : dtable) : Prop :=
  shape (fun n => option_map stored (called col_name (tb_columns s) n)) (kept_cons s t) (called ix_name (tb_indexes s)) dt.

Definition left_cons (re : constraint -> constraint -> bool) (s t : table) (n : bytes) : option constraint :=
  match called con_name (tb_constraints s) n with
  | Some a =>
      match called con_name (tb_constraints t) n with
      | Some b => if re a b then None else Some a
      | None => if is_key a || is_fkey a then None else Some a
      end
  | None => None
  end.
Definition left_ixs (s t : table) (n : bytes) : option index :=
  match called ix_name (tb_indexes s) n with Some i => if missing (called ix_name (tb_indexes t) n) then None else Some i | None => None end.
Definition left_cols (s t : table) (n : bytes) : option dcolumn :=
  match called col_name (tb_columns s) n with Some a => if missing (called col_name (tb_columns t) n) then None else Some (stored a) | None => None end.
(** The columns of both, with [f] for those of both. *)
Definition both_cols (d : dialect) (coll : bytes) (f : column -> column -> dcolumn) (s t : table) (n : bytes) : option dcolumn :=
  match called col_name (tb_columns t) n with
  | Some b => Some match called col_name (tb_columns s) n with Some a => f a b | None => written d coll b end
  | None => None
  end.
Definition both_ixs (s t : table) (n : bytes) : option index :=
  match called ix_name (tb_indexes t) n with
  | Some j => Some match called ix_name (tb_indexes s) n with Some i => i | None => j end
  | None => None
  end.
(** The constraints, with [g] for those that have been added and [h] for those of both. *)
Definition both_cons (re : constraint -> constraint -> bool) (g : constraint -> constraint) (h : constraint -> constraint -> constraint)
  (s t : table) (n : bytes) : option constraint :=
  match called con_name (tb_constraints t) n with
  | Some b =>
      match called con_name (tb_constraints s) n with
      | Some a => Some (if re a b then g b else h a b)
      | None => if is_key b then Some (g b) else None
      end
  | None =>
      match called con_name (tb_constraints s) n with
      | Some a => if is_key a || is_fkey a then None else Some a
      | None => None
      end
  end.

(** ** The state of a table when only foreign keys are missing *)
Definition ready (d : dialect) (cur coll : bytes) (to_come : constraint -> Prop) (t : table) (dt : dtable) : Prop :=
  (forall n, dt_columns dt n = None <-> called col_name (tb_columns t) n = None)
  /\ (forall n a b, dt_columns dt n = Some a -> called col_name (tb_columns t) n = Some b -> alike d coll a b)
  /\ (forall n a, dt_constraints dt n = Some a -> unique_key a \/ foreign a -> exists b, called con_name (tb_constraints t) n = Some b)
  /\ (forall n b, called con_name (tb_constraints t) n = Some b -> unique_key b \/ (foreign b /\ ~ to_come b) ->
        exists a, dt_constraints dt n = Some a /\ same_constraint cur a b)
  /\ (forall n b, called con_name (tb_constraints t) n = Some b -> foreign b -> to_come b -> dt_constraints dt n = None)
  /\ (d = Postgres -> forall n a b, dt_constraints dt n = Some a -> called con_name (tb_constraints t) n = Some b -> same_flags a b)
  /\ (forall n, dt_indexes dt n = None <-> called ix_name (tb_indexes t) n = None).
Lemma ready_ext : forall d cur coll P R t dt, (forall b, In b (tb_constraints t) -> foreign b -> (P b <-> R b)) ->
  ready d cur coll P t dt -> ready d cur coll R t dt.
Proof.
  intros d cur coll P R t dt E (H1 & H2 & H3 & H4 & H5 & H6 & H7). split; [exact H1|]. split; [exact H2|]. split; [exact H3|]. split; [|split; [|split; [exact H6|exact H7]]].
  - intros n b Hb [K|(F & N)]; apply (H4 n b Hb); [left; exact K|]. right. split; [exact F|]. intro Z. apply N.
    apply E; [apply (called_some _ _ _ _ Hb)|exact F|exact Z].
  - intros n b Hb F Z. apply (H5 n b Hb F). apply E; [apply (called_some _ _ _ _ Hb)|exact F|exact Z].
Qed.
Lemma ready_agrees : forall d cur coll P t dt, (forall b, In b (tb_constraints t) -> ~ P b) -> ready d cur coll P t dt -> agrees_table d cur coll dt t.
Proof.
  intros d cur coll P t dt E (H1 & H2 & H3 & H4 & H5 & H6 & H7). split; [exact H1|]. split; [exact H2|]. split; [exact H3|]. split; [|split; [exact H6|exact H7]].
  intros n b Hb [K|F]; apply (H4 n b Hb); [auto|]. right. split; [exact F|]. apply E. apply (called_some _ _ _ _ Hb).
Qed.

Section Pair.
Context (d : dialect) (cur coll : bytes) (src dest : list schema).
Hypothesis Os : orderly src.
Hypothesis Od : orderly dest.
Context (q : qname) (s t : table).
Hypothesis Ls : located src q s.
Hypothesis Lt : located dest q t.
Let Ncs := orderly_columns _ Os _ _ Ls.
Let Nct := orderly_columns _ Od _ _ Lt.
Let Nks := orderly_constraints _ Os _ _ Ls.
Let Nkt := orderly_constraints _ Od _ _ Lt.
Let Nis := orderly_indexes _ Os _ _ Ls.
Let Nit := orderly_indexes _ Od _ _ Lt.

(** *** Columns *)
Lemma drop_cols_left : forall n,
  updated col_name (only_cols s t) (fun _ => None) [] (fun n => option_map stored (called col_name (tb_columns s) n)) n = left_cols s t n.
Proof.
  intro n. rewrite updated_end. unfold left_cols.
  rewrite (called_sub col_name (only_cols s t) (tb_columns s) (fun c => missing (called col_name (tb_columns t) (col_name c))) n Ncs).
  2: { intro c. rewrite (only_cols_in src dest q s t c Os Od Ls Lt), missing_spec. reflexivity. }
  destruct (called col_name (tb_columns s) n) as [a|] eqn:E; [|reflexivity]. apply called_some in E. destruct E as (_ & ->).
  destruct (missing _); reflexivity.
Qed.
Lemma add_cols_both : forall n,
  updated col_name (only_cols t s) (fun c => Some (written d coll c)) [] (left_cols s t) n = both_cols d coll (fun a _ => stored a) s t n.
Proof.
  intro n. rewrite updated_end. unfold both_cols, left_cols.
  rewrite (called_sub col_name (only_cols t s) (tb_columns t) (fun c => missing (called col_name (tb_columns s) (col_name c))) n Nct).
  2: { intro c. rewrite (only_cols_in dest src q t s c Od Os Lt Ls), missing_spec. reflexivity. }
  destruct (called col_name (tb_columns t) n) as [b|] eqn:E; cbn [missing].
  - apply called_some in E. destruct E as (_ & ->). destruct (called col_name (tb_columns s) n); reflexivity.
  - destruct (called col_name (tb_columns s) n); reflexivity.
Qed.
Lemma only_cols_dropped : forall c, In c (only_cols s t) -> ~ in_columns t (col_name c) /\ option_map stored (called col_name (tb_columns s) (col_name c)) <> None.
Proof.
  intros c Hc. apply (only_cols_in src dest q s t c Os Od Ls Lt) in Hc. destruct Hc as (H1 & H2). split.
  - intro Z. apply called_none_map in H2. exact (H2 Z).
  - rewrite (called_in _ _ _ Ncs H1). discriminate.
Qed.
Lemma only_cols_added : forall c, In c (only_cols t s) -> left_cols s t (col_name c) = None.
Proof.
  intros c Hc. apply (only_cols_in dest src q t s c Od Os Lt Ls) in Hc. destruct Hc as (H1 & H2). unfold left_cols. rewrite H2. reflexivity.
Qed.
Lemma both_cols_exist : forall f n, in_columns t n -> both_cols d coll f s t n <> None.
Proof.
  intros f n Hn. apply called_is in Hn. destruct Hn as (b & E). unfold both_cols. rewrite E. discriminate.
Qed.
Lemma altered_pairs : forall f, map (fun p : column * column => col_name (snd p)) (filter f (pairs_cols s t)) = map col_name (map snd (filter f (pairs_cols s t))).
Proof. intro f. rewrite map_map. reflexivity. Qed.
Lemma modified_cols : forall (P : column -> column -> bool) n,
  updated (fun p : column * column => col_name (snd p)) (filter (fun '(a, b) => P a b) (pairs_cols s t)) (fun p => Some (written d coll (snd p))) []
    (both_cols d coll (fun a _ => stored a) s t) n = both_cols d coll (fun a b => if P a b then written d coll b else stored a) s t n.
Proof.
  intros P n. rewrite updated_end. unfold both_cols. set (L := filter _ _).
  assert (HL : forall a b, In (a, b) L <-> In b (tb_columns t) /\ called col_name (tb_columns s) (col_name b) = Some a /\ P a b = true).
  { intros a b. unfold L. rewrite filter_In, (pairs_cols_in src dest q s t a b Os Od Ls Lt). tauto. }
  destruct (called (fun p : column * column => col_name (snd p)) L n) as [[a b]|] eqn:E.
  - apply called_some in E. destruct E as (Hab & E). cbn [snd] in *. apply HL in Hab. destruct Hab as (H1 & H2 & H3). rewrite <- E.
    rewrite (called_in _ _ _ Nct H1), H2, H3. reflexivity.
  - destruct (called col_name (tb_columns t) n) as [b|] eqn:E1; [|reflexivity]. destruct (called col_name (tb_columns s) n) as [a|] eqn:E2; [|reflexivity].
    destruct (P a b) eqn:E3; [|reflexivity]. exfalso. apply called_some in E1. destruct E1 as (E1 & En).
    apply (proj1 (called_none _ _ _) E (a, b)); [|exact En]. apply HL. rewrite En. auto.
Qed.

(** *** Indexes *)
Lemma drop_ixs_left : forall n, updated ix_name (only_ixs s t) (fun _ => None) [] (called ix_name (tb_indexes s)) n = left_ixs s t n.
Proof.
  intro n. rewrite updated_end. unfold left_ixs.
  rewrite (called_sub ix_name (only_ixs s t) (tb_indexes s) (fun c => missing (called ix_name (tb_indexes t) (ix_name c))) n Nis).
  2: { intro c. rewrite (only_ixs_in src dest q s t c Os Od Ls Lt), missing_spec. reflexivity. }
  destruct (called ix_name (tb_indexes s) n) as [a|] eqn:E; [|reflexivity]. apply called_some in E. destruct E as (_ & ->).
  destruct (missing _); reflexivity.
Qed.
Lemma create_ixs_both : forall n, updated ix_name (only_ixs t s) Some [] (left_ixs s t) n = both_ixs s t n.
Proof.
  intro n. rewrite updated_end. unfold both_ixs, left_ixs.
  rewrite (called_sub ix_name (only_ixs t s) (tb_indexes t) (fun c => missing (called ix_name (tb_indexes s) (ix_name c))) n Nit).
  2: { intro c. rewrite (only_ixs_in dest src q t s c Od Os Lt Ls), missing_spec. reflexivity. }
  destruct (called ix_name (tb_indexes t) n) as [b|] eqn:E; cbn [missing].
  - apply called_some in E. destruct E as (_ & ->). destruct (called ix_name (tb_indexes s) n); reflexivity.
  - destruct (called ix_name (tb_indexes s) n); reflexivity.
Qed.
Lemma only_ixs_dropped : forall i, In i (only_ixs s t) -> called ix_name (tb_indexes s) (ix_name i) = Some i.
Proof.
  intros i Hi. apply (only_ixs_in src dest q s t i Os Od Ls Lt) in Hi. apply called_in; [exact Nis|apply Hi].
Qed.
Lemma only_ixs_created : forall i, In i (only_ixs t s) -> In i (tb_indexes t) /\ left_ixs s t (ix_name i) = None.
Proof.
  intros i Hi. apply (only_ixs_in dest src q t s i Od Os Lt Ls) in Hi. destruct Hi as (H1 & H2). split; [exact H1|]. unfold left_ixs. rewrite H2. reflexivity.
Qed.

Section Objects.
Hypothesis CR : creatable d cur dest.
Hypothesis SO : same_objects d cur src dest.
Hypothesis SEP : separate d src dest.
Hypothesis PD : proper_keys dest.
Lemma left_ixs_columns : forall n i, left_ixs s t n = Some i ->
  (forall m, In m (ix_columns i) -> in_columns t m \/ wrapped_in_brackets m = true) /\ forall m, In m (ix_include i) -> in_columns t m.
Proof.
  intros n i E. unfold left_ixs in E. destruct (called ix_name (tb_indexes s) n) as [i'|] eqn:E1; [|discriminate].
  destruct (called ix_name (tb_indexes t) n) as [j|] eqn:E2; [|discriminate]. cbn in E. injection E as ->.
  apply called_some in E1, E2. destruct E1 as (E1 & N1). destruct E2 as (E2 & N2).
  destruct (proj2 (SO q s t Ls Lt) i j E1 E2) as (X1 & X2); [congruence|]. rewrite X1, X2.
  destruct (CR q t Lt) as (_ & _ & _ & _ & _ & _ & _ & CI). destruct (CI j E2) as (_ & C1 & C2). auto.
Qed.
(** A key and an index cannot have the same name. *)
Lemma no_such_index : forall c n, d = MySQL \/ d = Postgres -> In c (tb_constraints t) -> unique_key c -> both_ixs s t (con_name c) <> Some n.
Proof.
  intros c i D Hc K E. unfold both_ixs in E.
  assert (X : exists l u, (l = src \/ l = dest) /\ located l q u /\ In i (tb_indexes u) /\ ix_name i = con_name c).
  { destruct (called ix_name (tb_indexes t) (con_name c)) as [j|] eqn:E1; [|discriminate].
    destruct (called ix_name (tb_indexes s) (con_name c)) as [k|] eqn:E2; injection E as <-.
    - apply called_some in E2. exists src, s. destruct E2. auto.
    - apply called_some in E1. exists dest, t. destruct E1. auto. }
  destruct X as (l & u & El & Hu & Hi & En).
  assert (Ho : object_of src (OIndex q i) \/ object_of dest (OIndex q i)) by (destruct El as [->| ->]; [left|right]; exists u; auto).
  assert (Hk : object_of src (OConstraint q c) \/ object_of dest (OConstraint q c)) by (right; exists t; auto).
  pose proof (proj2 (is_a_key_spec c) K) as Kb.
  destruct D as [->| ->].
  - assert (Z : slot (OConstraint q c) = slot (OIndex q i)); [|discriminate Z].
    refine (SEP _ _ (Indexes, fst q, Some (snd q), con_name c) Hk Ho _ _).
    + cbn. rewrite Kb. left. reflexivity.
    + cbn. rewrite En. left. reflexivity.
  - assert (Z : slot (OConstraint q c) = slot (OIndex q i)); [|discriminate Z].
    refine (SEP _ _ (Indexes, fst q, None, con_name c) Hk Ho _ _).
    + cbn. rewrite Kb. right. left. reflexivity.
    + cbn. rewrite En. left. reflexivity.
Qed.

(** *** Constraints *)
Context (re : constraint -> constraint -> bool).
Hypothesis RE : forall a b, In a (tb_constraints s) -> In b (tb_constraints t) -> con_name a = con_name b ->
  (re a b = false -> con_columns a = con_columns b) /\ (re a b = true -> primary b /\ con_columns a <> con_columns b).
Definition dropped_keys : list constraint :=
  filter is_key (only_cons s t) ++ map fst (filter (fun '(a, b) => re a b) (pairs_cons s t)).
Definition drops (c : constraint) : bool :=
  match called con_name (tb_constraints t) (con_name c) with Some b => re c b | None => is_key c end.
Lemma dropped_keys_in : forall c, In c dropped_keys <-> In c (tb_constraints s) /\ drops c = true.
Proof.
  intro c. unfold dropped_keys, drops. rewrite in_app_iff, filter_In, (only_cons_in src dest q s t c Os Od Ls Lt), in_map_iff. split.
  - intros [((H1 & H2) & H3)|((a & b) & <- & H)].
    + rewrite H2. auto.
    + apply filter_In in H. destruct H as (H & R). apply (pairs_cons_in src dest q s t a b Os Od Ls Lt) in H. destruct H as (H1 & H2).
      apply called_some in H2. destruct H2 as (H2 & H3). cbn [fst]. rewrite H3, (called_in _ _ _ Nkt H1). auto.
  - intros (H1 & H2). destruct (called con_name (tb_constraints t) (con_name c)) as [b|] eqn:E; [right|left; auto].
    exists (c, b). split; [reflexivity|]. apply filter_In. split; [|exact H2]. apply (pairs_cons_in src dest q s t c b Os Od Ls Lt).
    apply called_some in E. destruct E as (E1 & E2). split; [exact E1|]. rewrite E2. apply called_in; assumption.
Qed.
Lemma dropped_keys_nodup : NoDup (map con_name dropped_keys).
Proof.
  unfold dropped_keys. rewrite map_app. apply NoDup_join.
  - apply NoDup_filter_map. apply gone_nodup. exact Nks.
  - rewrite map_map. rewrite (map_ext_in _ (fun p => con_name (snd p))).
    + apply NoDup_filter_map. apply both_nodup. exact Nkt.
    + intros (a & b) H. apply filter_In in H. destruct H as (H & _). apply (pairs_cons_in src dest q s t a b Os Od Ls Lt) in H.
      destruct H as (_ & H). apply called_some in H. apply H.
  - intros n H1 H2. apply in_map_iff in H1. destruct H1 as (c & <- & H1). apply filter_In in H1. destruct H1 as (H1 & _).
    apply (only_cons_in src dest q s t c Os Od Ls Lt) in H1. destruct H1 as (_ & H1).
    apply in_map_iff in H2. destruct H2 as (a & E & H2). apply in_map_iff in H2. destruct H2 as ((a' & b) & <- & H2). apply filter_In in H2. destruct H2 as (H2 & _).
    apply (pairs_cons_in src dest q s t a' b Os Od Ls Lt) in H2. destruct H2 as (H2 & H3). apply called_some in H3. destruct H3 as (_ & H3). cbn [fst] in E.
    apply (proj1 (called_none _ _ _) H1 b H2). congruence.
Qed.
Lemma dropped_keys_left : forall n, updated con_name dropped_keys (fun _ => None) [] (kept_cons s t) n = left_cons re s t n.
Proof.
  intro n. rewrite updated_end, (called_sub con_name dropped_keys (tb_constraints s) drops n Nks dropped_keys_in). unfold kept_cons, left_cons, drops.
  destruct (called con_name (tb_constraints s) n) as [a|] eqn:E; [|reflexivity]. apply called_some in E. destruct E as (Ha & ->).
  destruct (called con_name (tb_constraints t) n) as [b|]; cbn [missing].
  - rewrite andb_false_r. destruct (re a b); reflexivity.
  - rewrite andb_true_r. destruct (is_key a), (is_fkey a); reflexivity.
Qed.
Lemma dropped_keys_kept : forall c, In c dropped_keys -> superfluous_key s t c /\ kept_cons s t (con_name c) = Some c.
Proof.
  intros c Hc. apply dropped_keys_in in Hc. destruct Hc as (H1 & H2). unfold drops in H2.
  destruct (called con_name (tb_constraints t) (con_name c)) as [b|] eqn:E.
  - pose proof (called_some _ _ _ _ E) as (E1 & E2). destruct (RE c b H1 E1 (eq_sym E2)) as (_ & R). destruct (R H2) as (R1 & R2).
    destruct (proj1 (SO q s t Ls Lt) c b H1 E1 (eq_sym E2)) as (T & _).
    assert (K : unique_key c) by (left; rewrite T; exact R1). split.
    + split; [exact H1|]. split; [exact K|]. intros k Hk Ek Ec. assert (k = b) by (eapply NoDup_map_inj_on; [exact Nkt|exact Hk|exact E1|congruence]).
      subst k. congruence.
    + unfold kept_cons. rewrite (called_in _ _ _ Nks H1), E, andb_false_r. reflexivity.
  - apply is_key_spec in H2. split.
    + split; [exact H1|]. split; [exact H2|]. intros k Hk Ek. exfalso. apply (proj1 (called_none _ _ _) E k Hk Ek).
    + unfold kept_cons. rewrite (called_in _ _ _ Nks H1). destruct (is_fkey c) eqn:F; [|reflexivity]. apply is_fkey_spec in F.
      destruct (key_not_foreign c H2 F).
Qed.
Lemma left_cons_spec : forall n a, left_cons re s t n = Some a -> In a (tb_constraints s) /\ con_name a = n
  /\ (unique_key a \/ foreign a -> exists b, In b (tb_constraints t) /\ con_name b = n /\ con_type a = con_type b /\ con_columns a = con_columns b).
Proof.
  intros n a E. unfold left_cons in E. destruct (called con_name (tb_constraints s) n) as [a'|] eqn:E1; [|discriminate].
  pose proof (called_some _ _ _ _ E1) as (H1 & H2).
  destruct (called con_name (tb_constraints t) n) as [b|] eqn:E2.
  - pose proof (called_some _ _ _ _ E2) as (H3 & H4). destruct (re a' b) eqn:R; [discriminate|]. injection E as ->.
    split; [exact H1|]. split; [exact H2|]. intros _. exists b. split; [exact H3|]. split; [exact H4|]. assert (En : con_name a = con_name b) by congruence.
    destruct (proj1 (SO q s t Ls Lt) a b H1 H3 En) as (T & _). split; [exact T|]. apply (RE a b H1 H3 En). exact R.
  - destruct (is_key a' || is_fkey a') eqn:K; [discriminate|]. injection E as ->. split; [exact H1|]. split; [exact H2|]. apply orb_false_iff in K. destruct K as (K1 & K2).
    intros [Z|Z]; [apply is_key_spec in Z|apply is_fkey_spec in Z]; congruence.
Qed.
Lemma left_key_columns : forall n c m, left_cons re s t n = Some c -> unique_key c -> In m (con_columns c) -> in_columns t m.
Proof.
  intros n c m E K Hm. destruct (left_cons_spec n c E) as (_ & _ & X). destruct (X (or_introl K)) as (b & H1 & _ & T & C).
  rewrite C in Hm. destruct (CR q t Lt) as (_ & _ & _ & CK & _). apply (CK b H1); [|exact Hm]. left. unfold unique_key in *. rewrite <- T. exact K.
Qed.
Lemma left_primary : forall n k, left_cons re s t n = Some k -> primary k -> exists k', In k' (tb_constraints t) /\ primary k' /\ con_columns k' = con_columns k.
Proof.
  intros n k E P. destruct (left_cons_spec n k E) as (_ & _ & X). destruct (X (or_introl (or_introl P))) as (b & H1 & _ & T & C).
  exists b. split; [exact H1|]. split; [unfold primary in *; congruence|congruence].
Qed.

(** Keys that are added. *)
Context (added : list constraint).
Definition adds (b : constraint) : bool :=
  match called con_name (tb_constraints s) (con_name b) with Some a => re a b | None => is_key b end.
Hypothesis HA : forall b, In b added <-> In b (tb_constraints t) /\ adds b = true.
Lemma added_missing : forall c, In c added -> missing_key t (left_cons re s t) c.
Proof.
  intros c Hc. apply HA in Hc. destruct Hc as (H1 & H2). unfold adds in H2.
  assert (K : unique_key c /\ left_cons re s t (con_name c) = None).
  { unfold left_cons. destruct (called con_name (tb_constraints s) (con_name c)) as [a|] eqn:E.
    - pose proof (called_some _ _ _ _ E) as (E1 & E2). destruct (RE a c E1 H1 E2) as (_ & R). destruct (R H2) as (R1 & R2).
      split; [left; exact R1|]. rewrite (called_in _ _ _ Nkt H1), H2. reflexivity.
    - apply is_key_spec in H2. auto. }
  destruct K as (K1 & K2). split; [exact H1|]. split; [exact K1|]. split; [exact K2|].
  intros P n k E Pk. destruct (left_cons_spec n k E) as (_ & _ & X). destruct (X (or_introl (or_introl Pk))) as (b & B1 & B2 & T & _).
  assert (b = c) by (apply (proj1 (PD q t Lt)); try assumption; unfold primary in *; congruence). subst b. congruence.
Qed.
Lemma added_no_index : forall c, d = MySQL \/ d = Postgres -> In c added -> no_index (both_ixs s t) c.
Proof.
  intros c D Hc. destruct (added_missing c Hc) as (H1 & K & _). unfold no_index. destruct (both_ixs s t (con_name c)) as [i|] eqn:E; [|reflexivity].
  exfalso. exact (no_such_index c i D H1 K E).
Qed.
Lemma added_both : forall g h n,
  updated con_name added (fun c => Some (g c)) [] (fun n => match called con_name (tb_constraints t) n, left_cons re s t n with Some b, Some a => Some (h a b) | _, o => o end) n
  = both_cons re g h s t n.
Proof.
  intros g h n. rewrite updated_end, (called_sub con_name added (tb_constraints t) adds n Nkt HA). unfold both_cons, left_cons, adds.
  destruct (called con_name (tb_constraints t) n) as [b|] eqn:E.
  - apply called_some in E. destruct E as (_ & ->). destruct (called con_name (tb_constraints s) n) as [a|].
    + destruct (re a b); reflexivity.
    + destruct (is_key b); reflexivity.
  - destruct (called con_name (tb_constraints s) n) as [a|]; [|reflexivity]. destruct (is_key a || is_fkey a); reflexivity.
Qed.
Lemma added_both_plain : forall n, updated con_name added Some [] (left_cons re s t) n = both_cons re (fun b => b) (fun a _ => a) s t n.
Proof.
  intro n. rewrite updated_end, (called_sub con_name added (tb_constraints t) adds n Nkt HA). unfold both_cons, left_cons, adds.
  destruct (called con_name (tb_constraints t) n) as [b|] eqn:E.
  - apply called_some in E. destruct E as (_ & ->). destruct (called con_name (tb_constraints s) n) as [a|].
    + destruct (re a b); reflexivity.
    + destruct (is_key b); reflexivity.
  - destruct (called con_name (tb_constraints s) n) as [a|]; [|reflexivity]. destruct (is_key a || is_fkey a); reflexivity.
Qed.

(** *** The result *)
Lemma pair_ready : forall cols g h dt,
  (forall b, con_type (g b) = con_type b /\ same_constraint cur (g b) b) ->
  (forall a b, In a (tb_constraints s) -> In b (tb_constraints t) -> con_name a = con_name b -> re a b = false -> same_constraint cur (h a b) b) ->
  (d = Postgres -> (forall b, In b added -> same_flags (g b) b)
    /\ forall a b, In a (tb_constraints s) -> In b (tb_constraints t) -> con_name a = con_name b -> same_flags (h a b) b) ->
  (forall n, called col_name (tb_columns t) n = None -> cols n = None) ->
  (forall n b, called col_name (tb_columns t) n = Some b -> exists a, cols n = Some a /\ alike d coll a b) ->
  shape cols (both_cons re g h s t) (both_ixs s t) dt ->
  ready d cur coll (fun b => called con_name (tb_constraints s) (con_name b) = None) t dt.
Proof.
  intros cols g h dt Hg Hh Hf C1 C2 (S1 & S2 & S3). split; [|split; [|split; [|split; [|split; [|split]]]]].
  - intro n. rewrite S1. split; [|apply C1]. intro E. destruct (called col_name (tb_columns t) n) as [b|] eqn:X; [|reflexivity].
    destruct (C2 n b X) as (a & E' & _). congruence.
  - intros n a b Ea Eb. rewrite S1 in Ea. destruct (C2 n b Eb) as (a' & E' & A). congruence.
  - intros n a E K. rewrite S2 in E. unfold both_cons in E. destruct (called con_name (tb_constraints t) n) as [b|]; [eauto|].
    destruct (called con_name (tb_constraints s) n) as [a'|]; [|discriminate]. destruct (is_key a' || is_fkey a') eqn:Z; [discriminate|]. injection E as ->.
    apply orb_false_iff in Z. destruct Z as (Z1 & Z2). destruct K as [K|K]; [apply is_key_spec in K|apply is_fkey_spec in K]; congruence.
  - intros n b Eb K. pose proof (called_some _ _ _ _ Eb) as (Hb & En). rewrite S2. unfold both_cons. rewrite Eb.
    destruct (called con_name (tb_constraints s) n) as [a|] eqn:Ea.
    + pose proof (called_some _ _ _ _ Ea) as (Ha & En'). eexists. split; [reflexivity|]. destruct (re a b) eqn:R; [apply Hg|].
      apply Hh; try assumption. congruence.
    + destruct K as [K|(_ & K)].
      * rewrite (proj2 (is_key_spec b) K). eexists. split; [reflexivity|]. apply Hg.
      * exfalso. apply K. rewrite En. exact Ea.
  - intros n b Eb F Z. pose proof (called_some _ _ _ _ Eb) as (Hb & En). rewrite S2. unfold both_cons. rewrite Eb, <- En, Z.
    destruct (is_key b) eqn:K; [|reflexivity]. apply is_key_spec in K. destruct (key_not_foreign b K F).
  - intros D n a b Ea Eb. pose proof (called_some _ _ _ _ Eb) as (Hb & En). rewrite S2 in Ea. unfold both_cons in Ea. rewrite Eb in Ea.
    destruct (Hf D) as (F1 & F2). destruct (called con_name (tb_constraints s) n) as [a'|] eqn:Ea'.
    + pose proof (called_some _ _ _ _ Ea') as (Ha & En'). injection Ea as <-. destruct (re a' b) eqn:R.
      * apply F1. apply HA. split; [exact Hb|]. unfold adds. rewrite En, Ea'. exact R.
      * apply F2; try assumption. congruence.
    + destruct (is_key b) eqn:K; [|discriminate]. injection Ea as <-. apply F1. apply HA. split; [exact Hb|]. unfold adds. rewrite En, Ea'. exact K.
  - intro n. rewrite S3. unfold both_ixs. destruct (called ix_name (tb_indexes t) n); split; congruence.
Qed.
End Objects.
End Pair.
