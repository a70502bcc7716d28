(** The two tables of the same name: what is found to be different. *)
From Coq Require Import Lia.
From Verif Require Import GoStr GoStrFacts ModelCatalog ModelCache CacheFacts ModelDdl ModelDiff ModelDiffSql SpecDiff DiffLookup DiffFacts DiffSelf DiffSqlite SpecApply ApplyFacts SpecLite.

(** The parts of lite_orderly and lite_creatable for one table. *)
Definition tidy (t : table) : Prop :=
  tb_schema t = [] /\ tb_ignore t = false /\ ~ is_virtual_table t
  /\ NoDup (map col_name (tb_columns t)) /\ NoDup (map ix_name (tb_indexes t))
  /\ (forall x, In x (tb_columns t) -> col_ignore x = false)
  /\ (forall k, In k (tb_constraints t) -> con_ignore k = false /\ con_table k = tb_name t /\ a_key k
        /\ con_columns k <> [] /\ forall n, In n (con_columns k) -> In n (map col_name (tb_columns t)))
  /\ (forall i, In i (tb_indexes t) -> ix_ignore i = false /\ ix_table i = tb_name t).
Definition makeable (t : table) : Prop :=
  tb_sql t = [] /\ tb_columns t <> []
  /\ (forall c, In c (tb_columns t) ->
        col_domain c = [] /\ to_upper (col_type c) = col_type c /\ col_generated c = false /\ col_expr c = []
        /\ (col_autoincrement c = true -> col_pkey c = true /\ col_type c = B"INTEGER")
        /\ (col_pkey c = true <-> exists k, In k (tb_constraints t) /\ primary k /\ con_columns k = [col_name c])
        /\ (col_unique c = true -> exists k, In k (tb_constraints t) /\ con_type k = UNIQUE /\ con_columns k = [col_name c]))
  /\ List.length (filter (fun k => beqb (con_type k) PRIMARY_KEY) (tb_constraints t)) <= 1
  /\ (forall a b, In a (tb_constraints t) -> In b (tb_constraints t) -> con_type a = con_type b -> con_columns a = con_columns b ->
        same_key (key_of false a) (key_of false b))
  /\ (forall i, In i (tb_indexes t) -> ix_columns i <> [] /\ ix_sql i = []
        /\ forall n, In n (ix_columns i) -> In n (map col_name (tb_columns t)) \/ wrapped_in_brackets n = true).

Lemma same_key_refl : forall k, same_key k k.
Proof. intro k. repeat split. Qed.
Lemma same_key_sym : forall k k', same_key k k' -> same_key k' k.
Proof. intros k k' (A & B & C & D). repeat split; congruence. Qed.
Lemma same_key_trans : forall k1 k2 k3, same_key k1 k2 -> same_key k2 k3 -> same_key k1 k3.
Proof. intros k1 k2 k3 (A & B & C & D) (A' & B' & C' & D'). repeat split; congruence. Qed.
Lemma key_of_inline : forall i c, same_key (key_of i c) (key_of false c).
Proof. intros i c. unfold key_of. destruct (beqb (con_type c) FOREIGN_KEY); repeat split. Qed.
Lemma key_kind : forall i c, lk_kind (key_of i c) = con_type c.
Proof. intros i c. unfold key_of. destruct (beqb (con_type c) FOREIGN_KEY); reflexivity. Qed.
Lemma key_columns : forall i c, lk_columns (key_of i c) = con_columns c.
Proof. intros i c. unfold key_of. destruct (beqb (con_type c) FOREIGN_KEY); reflexivity. Qed.
Lemma key_table : forall i c, foreign c -> lk_table (key_of i c) = con_reftable c.
Proof. intros i c F. unfold key_of. rewrite F. reflexivity. Qed.
Lemma key_named : forall i c, key_of i (named_constraint c) = key_of i c.
Proof. intros i c. unfold named_constraint. destruct (name_kind_of (con_type c)); reflexivity. Qed.
Lemma named_type : forall c, con_type (named_constraint c) = con_type c.
Proof. intro c. unfold named_constraint. destruct (name_kind_of (con_type c)); reflexivity. Qed.
Lemma named_columns : forall c, con_columns (named_constraint c) = con_columns c.
Proof. intro c. unfold named_constraint. destruct (name_kind_of (con_type c)); reflexivity. Qed.

(** The name under which a key is compared is made of its kind, its table and its columns. *)
Lemma same_key_compared : forall c d, a_key c -> con_table c = con_table d -> same_key (key_of false c) (key_of false d) -> compared_name c = compared_name d.
Proof.
  intros c d K T (A & B & _). rewrite !key_kind in A. rewrite !key_columns in B. unfold compared_name. rewrite <- A, <- B, <- T.
  destruct K as [[K|K]|K]; rewrite K; reflexivity.
Qed.
Lemma compared_some : forall c, a_key c -> some_name (compared_name c) = true.
Proof. intros c [[K|K]|K]; apply some_name_spec; apply compared_name_nonempty; auto. Qed.

Lemma named_is : forall t, ~ is_virtual_table t -> named_table t = with_constraints t (map named_constraint (tb_constraints t)).
Proof. intros t V. unfold named_table. destruct (is_virtual t) eqn:E; [|reflexivity]. apply is_virtual_spec in E. contradiction. Qed.

Lemma not_named : forall A (name : A -> bytes) ign l n, NoDup (map name l) -> (forall a, In a l -> ign a = false) ->
  (pick name ign l n = None <-> ~ In n (map name l)).
Proof.
  intros A name ign l n N I. rewrite (pick_none name ign l n N). split.
  - intros H Z. apply in_map_iff in Z. destruct Z as (a & E & Ha). exact (H a Ha (I a Ha) E).
  - intros H a Ha _ E. apply H. rewrite <- E. apply in_map. exact Ha.
Qed.

Lemma only_cols_in : forall s t c, tidy s -> tidy t ->
  In c (only_cols (named_table s) (named_table t)) <-> In c (tb_columns s) /\ ~ In (col_name c) (map col_name (tb_columns t)).
Proof.
  intros s t c Ts Tt. rewrite (named_is s), (named_is t) by (apply Ts || apply Tt). unfold only_cols. rewrite gone_in. unfold find_col. cbn [with_constraints tb_columns].
  rewrite not_named; [|apply Tt|apply Tt]. split; [tauto|]. intros (A & B). split; [exact A|]. split; [apply Ts; exact A|exact B].
Qed.
Lemma only_ixs_in : forall s t c, tidy s -> tidy t ->
  In c (only_ixs (named_table s) (named_table t)) <-> In c (tb_indexes s) /\ ~ In (ix_name c) (map ix_name (tb_indexes t)).
Proof.
  intros s t c Ts Tt. rewrite (named_is s), (named_is t) by (apply Ts || apply Tt). unfold only_ixs. rewrite gone_in. unfold find_ix. cbn [with_constraints tb_indexes].
  rewrite not_named; [|apply Tt|intros a Ha; apply Tt; exact Ha]. split; [tauto|]. intros (A & B). split; [exact A|]. split; [apply Ts; exact A|exact B].
Qed.
Lemma find_con_none : forall t c, tidy t -> a_key c ->
  (find_con (named_table t) (compared_name c) = None <-> forall b, In b (tb_constraints t) -> compared_name b <> compared_name c).
Proof.
  intros t c Tt K. rewrite (named_is t) by apply Tt. unfold find_con, pick_con. rewrite (compared_some c K). unfold pick. cbn [with_constraints tb_constraints].
  destruct (last_named con_name (map named_constraint (tb_constraints t)) (compared_name c)) as [b|] eqn:L.
  - apply last_named_in in L. destruct L as (L & E). apply in_map_iff in L. destruct L as (b0 & <- & Hb). rewrite named_ignore. rewrite compared_name_ok in E.
    replace (con_ignore b0) with false by (symmetry; apply Tt; exact Hb). split; [discriminate|]. intro H. exfalso. exact (H b0 Hb E).
  - split; [|reflexivity]. intros _ b Hb E. apply (last_named_none _ _ _ L (named_constraint b)); [apply in_map; exact Hb|]. rewrite compared_name_ok. exact E.
Qed.
Lemma only_cons_in : forall s t c', tidy s -> tidy t ->
  In c' (only_cons (named_table s) (named_table t))
  <-> exists c, c' = named_constraint c /\ In c (tb_constraints s) /\ forall b, In b (tb_constraints t) -> compared_name b <> compared_name c.
Proof.
  intros s t c' Ts Tt. unfold only_cons. rewrite gone_in. rewrite (named_is s) by apply Ts. cbn [with_constraints tb_constraints]. split.
  - intros (H & I & F). apply in_map_iff in H. destruct H as (c & <- & Hc). exists c. split; [reflexivity|]. split; [exact Hc|].
    rewrite compared_name_ok in F. refine (proj1 (find_con_none t c Tt _) F). apply Ts. exact Hc.
  - intros (c & -> & Hc & F). split; [apply in_map; exact Hc|]. rewrite named_ignore, compared_name_ok. split; [apply Ts; exact Hc|].
    apply find_con_none; [exact Tt| |exact F]. apply Ts. exact Hc.
Qed.
Lemma differ_alike : forall p q, differ_sqlite p q = false <-> lite_alike (lite_stored p) q.
Proof.
  intros p q. unfold differ_sqlite, lite_alike, lite_stored, same_default. cbn [lc_type lc_notnull lc_default]. rewrite !orb_false_iff, !negb_false_iff.
  rewrite !beqb_eq. destruct (col_notnull p), (col_notnull q); cbn [xorb]; intuition congruence.
Qed.
Lemma altered_in : forall s t p q, tidy s -> tidy t ->
  In (p, q) (altered_sqlite (named_table s) (named_table t))
  <-> In p (tb_columns s) /\ In q (tb_columns t) /\ col_name p = col_name q /\ ~ lite_alike (lite_stored p) q.
Proof.
  intros s t p q Ts Tt. unfold altered_sqlite. rewrite filter_In. unfold pairs_cols. rewrite both_in. rewrite (named_is s), (named_is t) by (apply Ts || apply Tt).
  unfold find_col. cbn [with_constraints tb_columns]. rewrite <- differ_alike, not_false_iff_true. split.
  - intros ((A & _ & P) & D). apply pick_some in P. destruct P as (P & E & _). auto.
  - intros (A & B & E & D). split; [|exact D]. split; [exact B|]. split; [apply Tt; exact B|]. rewrite <- E. apply pick_unique; [apply Ts|exact A|apply Ts; exact A].
Qed.

Definition no_difference (s t : table) : Prop :=
  only_cons s t = [] /\ only_ixs s t = [] /\ only_cols t s = [] /\ altered_sqlite s t = [] /\ only_ixs t s = [] /\ only_cons t s = [].
Definition whole_alter (s t : table) : sqlite_alter :=
  SqliteAlter s t (only_ixs s t) (only_cons s t) (only_cols s t) (only_cols t s) (altered_sqlite s t)
    (only_cons t s) (only_ixs t s) (map col_name (only_cols s t)) (map col_name (only_cols t s)).
Lemma none_nil : forall A (l : list A), none l = true <-> l = [].
Proof. intros A [|a l]; split; intro H; reflexivity || discriminate. Qed.
Lemma alters_cases : forall s t, sqlite_alters true s t = [] /\ no_difference s t \/ sqlite_alters true s t = [whole_alter s t].
Proof.
  intros s t. unfold sqlite_alters, no_difference. destruct (_ && _) eqn:E; [left|right; reflexivity]. split; [reflexivity|].
  rewrite !andb_true_iff, !none_nil in E. tauto.
Qed.
Lemma no_alters : forall s t, no_difference s t -> sqlite_alters true s t = [].
Proof. intros s t (A & B & C & D & E & F). unfold sqlite_alters. rewrite A, B, C, D, E, F. reflexivity. Qed.
Lemma nil_iff : forall A (l : list A), l = [] <-> forall a, ~ In a l.
Proof. intros A l. split; [intros -> a []|]. destruct l as [|a l]; [reflexivity|]. intro H. exfalso. exact (H a (or_introl eq_refl)). Qed.

(** ** Nothing is different *)
Lemma quiet_agrees : forall s t lt, tidy s -> tidy t -> tb_name s = tb_name t -> lite_shows s lt -> lite_faithful s t -> lite_noticed s t ->
  no_difference (named_table s) (named_table t) -> lite_agrees_table lt t.
Proof.
  intros s t lt Ts Tt SAME (S1 & S2 & S3 & S4) (F1 & F2) NO (D1 & D2 & D3 & D4 & D5 & D6).
  rewrite nil_iff in D1, D2, D3, D4, D5, D6.
  assert (E1 : forall c, In c (tb_constraints s) -> exists b, In b (tb_constraints t) /\ same_key (key_of false c) (key_of false b)).
  { intros c Hc. destruct (find_con (named_table t) (compared_name c)) as [b|] eqn:Fb.
    - unfold find_con, pick_con in Fb. destruct (some_name (compared_name c)); [|discriminate]. apply pick_some in Fb. destruct Fb as (Hb & Eb & _).
      rewrite (named_is t) in Hb by apply Tt. cbn [with_constraints tb_constraints] in Hb. apply in_map_iff in Hb. destruct Hb as (b0 & <- & Hb). rewrite compared_name_ok in Eb.
      exists b0. split; [exact Hb|]. apply F1; [exact Hc|exact Hb|symmetry; exact Eb].
    - exfalso. apply (D1 (named_constraint c)). apply only_cons_in; [exact Ts|exact Tt|]. exists c. split; [reflexivity|]. split; [exact Hc|].
      refine (proj1 (find_con_none t c Tt _) Fb). apply Ts. exact Hc. }
  assert (E2 : forall c, In c (tb_constraints t) -> exists b, In b (tb_constraints s) /\ same_key (key_of false b) (key_of false c)).
  { intros c Hc. destruct (find_con (named_table s) (compared_name c)) as [b|] eqn:Fb.
    - unfold find_con, pick_con in Fb. destruct (some_name (compared_name c)); [|discriminate]. apply pick_some in Fb. destruct Fb as (Hb & Eb & _).
      rewrite (named_is s) in Hb by apply Ts. cbn [with_constraints tb_constraints] in Hb. apply in_map_iff in Hb. destruct Hb as (b0 & <- & Hb). rewrite compared_name_ok in Eb.
      exists b0. split; [exact Hb|]. apply F1; assumption.
    - exfalso. apply (D6 (named_constraint c)). apply only_cons_in; [exact Tt|exact Ts|]. exists c. split; [reflexivity|]. split; [exact Hc|].
      refine (proj1 (find_con_none s c Ts _) Fb). apply Tt. exact Hc. }
  assert (I1 : forall i, In i (tb_indexes s) -> In (ix_name i) (map ix_name (tb_indexes t))).
  { intros i Hi. destruct (in_dec (list_eq_dec ascii_dec) (ix_name i) (map ix_name (tb_indexes t))) as [Y|Y]; [exact Y|].
    exfalso. apply (D2 i). apply only_ixs_in; auto. }
  assert (I2 : forall i, In i (tb_indexes t) -> In (ix_name i) (map ix_name (tb_indexes s))).
  { intros i Hi. destruct (in_dec (list_eq_dec ascii_dec) (ix_name i) (map ix_name (tb_indexes s))) as [Y|Y]; [exact Y|].
    exfalso. apply (D5 i). apply only_ixs_in; auto. }
  assert (C2 : forall i, In i (tb_columns t) -> In (col_name i) (map col_name (tb_columns s))).
  { intros i Hi. destruct (in_dec (list_eq_dec ascii_dec) (col_name i) (map col_name (tb_columns s))) as [Y|Y]; [exact Y|].
    exfalso. apply (D3 i). apply only_cols_in; auto. }
  assert (AL : forall p q, In p (tb_columns s) -> In q (tb_columns t) -> col_name p = col_name q -> lite_alike (lite_stored p) q).
  { intros p q Hp Hq E. apply differ_alike. destruct (differ_sqlite p q) eqn:D; [|reflexivity]. exfalso. apply (D4 (p, q)). apply altered_in; [exact Ts|exact Tt|].
    split; [exact Hp|]. split; [exact Hq|]. split; [exact E|]. rewrite <- differ_alike, D. discriminate. }
  assert (C1 : forall i, In i (tb_columns s) -> In (col_name i) (map col_name (tb_columns t))).
  { intros i Hi. destruct (in_dec (list_eq_dec ascii_dec) (col_name i) (map col_name (tb_columns t))) as [Y|Y]; [exact Y|]. exfalso.
    destruct NO as [N|[N|[N|[N|[N|N]]]]].
    - exists i. auto.
    - destruct N as (c & Hc & Nc). exact (Nc (C2 c Hc)).
    - destruct N as (c & Hc & Nc). exact (Nc (I1 c Hc)).
    - destruct N as (c & Hc & Nc). exact (Nc (I2 c Hc)).
    - destruct N as (c & Hc & Nc). destruct (E1 c Hc) as (b & Hb & K). exact (Nc b Hb K).
    - destruct N as (c & Hc & Nc). destruct (E2 c Hc) as (b & Hb & K). exact (Nc b Hb (same_key_sym _ _ K)).
    - destruct N as (p & q & Hp & Hq & E & N). exact (N (AL p q Hp Hq E)). }
  split; [|split; [|split; [|split; [|split]]]].
  - intro n. rewrite S1. split; intro H.
    + apply called_none. intros q Hq <-. pose proof (C2 q Hq) as Z. apply called_is in Z. destruct Z as (p & Z). rewrite Z in H. discriminate.
    + destruct (called col_name (tb_columns s) n) as [p|] eqn:P; [|reflexivity]. exfalso. apply called_some in P. destruct P as (Hp & <-).
      pose proof (C1 p Hp) as Z. apply called_is in Z. destruct Z as (q & Z). congruence.
  - intros n p q Hp Hq. rewrite S1 in Hp. destruct (called col_name (tb_columns s) n) as [p0|] eqn:P; [|discriminate]. injection Hp as <-.
    apply called_some in P. apply called_some in Hq. apply AL; [apply P|apply Hq|]. destruct P, Hq. congruence.
  - intros k Hk. destruct (S2 k Hk) as (c & Hc & K). destruct (E1 c Hc) as (b & Hb & K'). exists b. split; [exact Hb|]. eapply same_key_trans; eassumption.
  - intros c Hc. destruct (E2 c Hc) as (b & Hb & K). destruct (S3 b Hb) as (k & Hk & K'). exists k. split; [exact Hk|]. eapply same_key_trans; eassumption.
  - intro n. rewrite S4. split; intro H.
    + apply called_none. intros q Hq <-. pose proof (I2 q Hq) as Z. apply called_is in Z. destruct Z as (p & Z). rewrite Z in H. discriminate.
    + apply called_none. intros q Hq <-. pose proof (I1 q Hq) as Z. apply called_is in Z. destruct Z as (p & Z). rewrite Z in H. discriminate.
  - intros n i j Hi Hj. rewrite S4 in Hi. apply called_some in Hi. apply called_some in Hj. destruct Hi as (Hi & Ei), Hj as (Hj & Ej). apply F2; congruence || assumption.
Qed.

(** A table of a catalog that was read from a database that agrees with [t]. *)
Lemma agrees_quiet : forall s t lt, tidy s -> tidy t -> tb_name s = tb_name t -> lite_shows s lt -> lite_agrees_table lt t ->
  no_difference (named_table s) (named_table t).
Proof.
  intros s t lt Ts Tt SAME (S1 & S2 & S3 & S4) (A1 & A2 & A3 & A4 & A5 & A6).
  assert (C1 : forall n, called col_name (tb_columns s) n = None <-> called col_name (tb_columns t) n = None).
  { intro n. rewrite <- (A1 n), S1. destruct (called col_name (tb_columns s) n); cbn; split; intro H; reflexivity || discriminate. }
  assert (I1 : forall n, called ix_name (tb_indexes s) n = None <-> called ix_name (tb_indexes t) n = None).
  { intro n. rewrite <- (A5 n), S4. reflexivity. }
  assert (NC : forall A (name : A -> bytes) l n, ~ In n (map name l) <-> called name l n = None).
  { intros A name l n. rewrite called_none. split.
    - intros H a Ha E. apply H. rewrite <- E. apply in_map. exact Ha.
    - intros H Z. apply in_map_iff in Z. destruct Z as (a & E & Ha). exact (H a Ha E). }
  unfold no_difference. rewrite !nil_iff. split; [|split; [|split; [|split; [|split]]]].
  - intros c' H. apply only_cons_in in H; [|assumption|assumption]. destruct H as (c & -> & Hc & N). destruct (S3 c Hc) as (k & Hk & K). destruct (A3 k Hk) as (b & Hb & K').
    apply (N b Hb). symmetry. apply same_key_compared.
    + apply Ts. exact Hc.
    + transitivity (tb_name s); [apply Ts; exact Hc|]. rewrite SAME. symmetry. apply Tt. exact Hb.
    + eapply same_key_trans; [apply same_key_sym; exact K|exact K'].
  - intros i H. apply only_ixs_in in H; [|assumption|assumption]. destruct H as (Hi & N). rewrite NC in N. apply I1 in N. rewrite <- NC in N. apply N. apply in_map. exact Hi.
  - intros i H. apply only_cols_in in H; [|assumption|assumption]. destruct H as (Hi & N). rewrite NC in N. apply C1 in N. rewrite <- NC in N. apply N. apply in_map. exact Hi.
  - intros (p, q) H. apply altered_in in H; [|assumption|assumption]. destruct H as (Hp & Hq & E & N). apply N. apply (A2 (col_name p)).
    + rewrite S1. erewrite called_in; [reflexivity|apply Ts|exact Hp].
    + rewrite E. apply called_in; [apply Tt|exact Hq].
  - intros i H. apply only_ixs_in in H; [|assumption|assumption]. destruct H as (Hi & N). rewrite NC in N. apply I1 in N. rewrite <- NC in N. apply N. apply in_map. exact Hi.
  - intros c' H. apply only_cons_in in H; [|assumption|assumption]. destruct H as (c & -> & Hc & N). destruct (A4 c Hc) as (k & Hk & K). destruct (S2 k Hk) as (b & Hb & K').
    apply (N b Hb). apply same_key_compared.
    + apply Ts. exact Hb.
    + transitivity (tb_name s); [apply Ts; exact Hb|]. rewrite SAME. symmetry. apply Tt. exact Hc.
    + eapply same_key_trans; [apply same_key_sym; exact K'|exact K].
Qed.

(** ** Whether the table is copied *)
Definition kept_alone (l : list bytes) (c : constraint) : Prop := foreign c /\ exists n, con_columns c = [n] /\ In n l.
Lemma needs_copy_ok : forall l c, con_columns c <> [] -> exists b, needs_copy l c = Ok b /\ (b = false -> kept_alone l c).
Proof.
  intros l c N. unfold needs_copy, kept_alone, foreign. destruct (is_fkey c) eqn:F; cbn [negb orb].
  - destruct (con_columns c) as [|n [|m r]] eqn:E; [contradiction| |].
    + cbn. exists (negb (bmem n l)). split; [reflexivity|]. intro H. apply negb_false_iff in H. apply bmem_In in H. split; [apply beqb_eq; exact F|]. exists n. auto.
    + cbn. exists true. split; [reflexivity|discriminate].
  - exists true. split; [reflexivity|discriminate].
Qed.
Lemma all_copies : forall l cs, (forall c, In c cs -> con_columns c <> []) ->
  exists r, filterr (needs_copy l) cs = Ok r /\ (r = [] -> forall c, In c cs -> kept_alone l c).
Proof.
  intros l. induction cs as [|c cs IH]; intro H.
  - exists []. split; [reflexivity|]. intros _ c [].
  - destruct (needs_copy_ok l c (H c (or_introl eq_refl))) as (b & E & K). destruct (IH (fun d Hd => H d (or_intror Hd))) as (r & R & J).
    cbn [filterr]. rewrite E. cbn [bindr]. rewrite R. cbn [bindr]. eexists. split; [reflexivity|]. destruct b; [discriminate|].
    intros Z d [->|Hd]; [exact (K eq_refl)|exact (J Z d Hd)].
Qed.
Lemma copied_ok : forall a, (forall c, In c (sa_drop_constraints a) \/ In c (sa_add_constraints a) -> con_columns c <> []) ->
  exists b, copied a = Ok b /\ (b = false -> sa_alter_columns a = []
    /\ (forall c, In c (sa_drop_constraints a) -> kept_alone (sa_is_dropped a) c)
    /\ (forall c, In c (sa_add_constraints a) -> kept_alone (sa_is_added a) c)).
Proof.
  intros a H. unfold copied. destruct (none (sa_alter_columns a)) eqn:N; cbn [negb].
  - destruct (all_copies (sa_is_dropped a) (sa_drop_constraints a)) as (l1 & E1 & K1); [auto|].
    destruct (all_copies (sa_is_added a) (sa_add_constraints a)) as (l2 & E2 & K2); [auto|].
    rewrite E1. cbn [bindr]. rewrite E2. cbn [bindr]. eexists. split; [reflexivity|]. rewrite orb_false_iff, !negb_false_iff, !none_nil.
    intros (Z1 & Z2). apply none_nil in N. auto.
  - exists true. split; [reflexivity|discriminate].
Qed.
