(** Warnings about changed types, C42. *)
From Coq Require Import Lia.
From Verif Require Import GoStr GoStrFacts ModelCatalog ModelCache CacheFacts ModelDdl ModelDiff ModelDiffSql SpecDiff DiffLookup DiffFacts DiffSelf DiffPlan DiffSegments DiffDrops DiffCreate DiffNames.

Lemma digits_only_all : forall s, Forall (fun c => is_digit c = true) s -> digits_only s = true.
Proof. intros s H. induction H as [|c s E H IH]; [reflexivity|]. cbn. rewrite E. exact IH. Qed.
Lemma atoi_dec : forall n, fits n -> atoi (nat_dec n) = Z.of_nat n.
Proof.
  intros n F. unfold fits in F. unfold atoi. pose proof (N_dec_digits (N.of_nat n)) as D. pose proof (dec_N_N_dec (N.of_nat n)) as V.
  unfold nat_dec. destruct (N_dec (N.of_nat n)) as [|c s] eqn:E; [destruct (N_dec_nonempty _ E)|].
  pose proof (Forall_inv D) as Dc. cbn beta in Dc.
  assert (ceqb c "-"%char = false) as -> by (apply ceqb_neq; intros ->; discriminate Dc).
  assert (ceqb c "+"%char = false) as -> by (apply ceqb_neq; intros ->; discriminate Dc).
  rewrite (digits_only_all _ D), V. rewrite nat_N_Z.
  rewrite Z.min_r by lia. rewrite Z.max_r by lia. reflexivity.
Qed.
Lemma teqb_eq : forall x y, teqb x y = true <-> x = y.
Proof.
  intros ((x1 & x2) & x3) ((y1 & y2) & y3). unfold teqb. rewrite !andb_true_iff, !beqb_eq. split.
  - intros ((-> & ->) & ->). reflexivity.
  - intros [= -> -> ->]. auto.
Qed.
Lemma is_from_to : forall t1 t2 a b, beqb t1 (B a) && beqb t2 (B b) = true <-> t1 = B a /\ t2 = B b.
Proof. intros. rewrite andb_true_iff, !beqb_eq. reflexivity. Qed.
Lemma less_than : forall m n, 0 < n < m -> fits m ->
  ((0 <? atoi (nat_dec m))%Z && (0 <? atoi (nat_dec n))%Z && (atoi (nat_dec n) <? atoi (nat_dec m))%Z) = true.
Proof.
  intros m n L F. rewrite !atoi_dec; unfold fits in *; lia.
Qed.
Lemma harmful_warned : forall q n x y, harmful x y -> warn_type q n x y <> [].
Proof.
  intros q n ((t1 & a1) & b1) ((t2 & a2) & b2) H. unfold warn_type. cbn beta iota zeta. destruct H as [H|[H|H]].
  - destruct H as ((-> & ->) & k & l & -> & -> & L & F).
    change ((if ((0 <? atoi (nat_dec k))%Z && (0 <? atoi (nat_dec l))%Z && (atoi (nat_dec l) <? atoi (nat_dec k))%Z)
            then [Warning q n Narrower] else []) <> []).
    rewrite less_than by assumption. discriminate.
  - destruct H as ((-> & ->) & H).
    change ((if negb (atoi b1 =? atoi b2)%Z && negb (atoi b2 =? 0)%Z then [Warning q n OtherScale] else [])
            ++ (if (0 <? atoi a1)%Z && (0 <? atoi a2)%Z && (atoi a2 <? atoi a1)%Z then [Warning q n LessPrecise] else []) <> []).
    destruct H as [(k & l & -> & -> & L & F)|(k & l & -> & -> & N & L & F1 & F2)].
    + rewrite less_than by assumption. destruct (negb (atoi b1 =? atoi b2)%Z && _); discriminate.
    + rewrite !atoi_dec by assumption.
      assert (negb (Z.of_nat k =? Z.of_nat l)%Z && negb (Z.of_nat l =? 0)%Z = true) as -> by lia. discriminate.
  - destruct H as (N & N1 & N2 & N3 & N4 & N5).
    rewrite <- is_from_to in N1, N2, N3, N4. apply not_true_is_false in N1, N2, N3, N4. rewrite N1, N2, N3, N4. cbn [orb].
    destruct (beqb t1 (B"TEXT") && beqb t2 (B"VARCHAR")) eqn:E; [|intro; discriminate]. rewrite is_from_to in E.
    destruct a2 as [|c a2]; [|intro; discriminate]. destruct N5. auto.
Qed.
Lemma harmful_differs : forall x y, harmful x y -> x <> y.
Proof.
  intros ((t1 & a1) & b1) ((t2 & a2) & b2) [H|[H|H]] E; [| |destruct H; contradiction]; injection E as -> -> ->.
  - destruct H as (_ & m & n & -> & E & L & F). assert (F' : fits n) by (unfold fits in *; lia).
    pose proof (atoi_dec m F). pose proof (atoi_dec n F'). rewrite E in *. lia.
  - destruct H as (_ & [(m & n & -> & E & L & F)|(m & n & -> & E & L & _ & F & F')]).
    + assert (F' : fits n) by (unfold fits in *; lia). pose proof (atoi_dec m F). pose proof (atoi_dec n F'). rewrite E in *. lia.
    + pose proof (atoi_dec m F). pose proof (atoi_dec n F'). rewrite E in *. lia.
Qed.

Lemma warn_type_at : forall q n x y w, In w (warn_type q n x y) -> wn_table w = q /\ wn_column w = n.
Proof.
  intros q n ((t1 & a1) & b1) ((t2 & a2) & b2) w H. unfold warn_type in H.
  assert (K : forall b r w, In w (if b : bool then [Warning q n r] else []) -> wn_table w = q /\ wn_column w = n).
  { intros [|] r v V; [|contradiction]. destruct V as [<-|[]]. auto. }
  destruct (_ || _) in H; [contradiction|]. destruct (_ && _) in H.
  { destruct (is_empty a2); [contradiction|]. destruct H as [<-|[]]. auto. }
  destruct (beqb t1 (B"VARCHAR") && _) in H; [exact (K _ _ _ H)|].
  destruct (beqb t1 (B"NUMERIC") && _) in H.
  - apply in_app_or in H. destruct H as [H|H]; exact (K _ _ _ H).
  - destruct H as [<-|[]]. auto.
Qed.
Lemma collected_in : forall {A C D} (f : A -> result (C * D)) l r a,
  flatr (fun a => bindr (f a) (fun y => Ok [y])) l = Ok r -> In a l -> exists x, f a = Ok x /\ In x r.
Proof.
  intros A C D f l. induction l as [|b l IH]; intros r a H Ha; [contradiction|]. cbn [flatr] in H.
  invert_binds H. invert_binds E. injection E as <-. injection H as <-. destruct Ha as [->|Ha].
  - exists x1. cbn. auto.
  - destruct (IH _ _ E0 Ha) as (y & Hy & I). exists y. cbn. auto.
Qed.
Lemma flatr_same : forall {A C} (f g : A -> result (list C)) l, (forall a, f a = g a) -> flatr f l = flatr g l.
Proof. intros A C f g l H. induction l as [|a l IH]; [reflexivity|]. cbn [flatr]. rewrite H, IH. reflexivity. Qed.
Theorem harmful_changes_warned : forall flt prefix src dest drop files ws,
  unique_names (ct_schemas src) -> unique_names (ct_schemas dest) ->
  readable_types Postgres (ct_schemas src) -> readable_types Postgres (ct_schemas dest) ->
  results Postgres flt prefix src dest drop = Ok (files, ws) ->
  forall s t a b x y, In (s, t) (old_tables (ct_schemas src) (ct_schemas dest)) ->
    In a (tb_columns s) -> In b (tb_columns t) -> col_name a = col_name b -> col_ignore a = false -> col_ignore b = false ->
    normalize_column_type Postgres (col_type a) = Ok x -> normalize_column_type Postgres (col_type b) = Ok y -> harmful x y ->
    exists w, In w ws /\ wn_table w = qualify (ct_current src) (tb_schema t) (tb_name t) /\ wn_column w = col_name b.
Proof.
  intros flt prefix src dest drop files ws Us Ud Rs Rd H s t a b x y P Ha Hb E Ia Ib X Y HM.
  cbn [results] in H. unfold new_postgres_migration in H. invert_binds H.
  apply bindr_inv in E0. destruct E0 as (l & C & R). destruct x1 as (steps & ws'). injection H as _ <-.
  change (changes alter_postgres src dest drop) with (changes (code_alter Postgres) src dest drop) in C.
  rewrite (pure_changes Postgres src dest drop eq_refl (proj1 Us) (proj1 Ud) Rs Rd) in C. injection C as <-.
  destruct (record_lists _ _ _ _ R) as (_ & _ & _ & _ & L5 & _). cbn - [all_changes] in L5.
  pose proof (eq_trans L5 (alters_origin Postgres src drop _ _ eq_refl (proj1 Us) (proj1 Ud))) as L6. clear L5. rename L6 into L5.
  assert (Diff : In (a, b) (altered Postgres (ct_collation src) s t)).
  { apply filter_In. apply old_tables_in in P. destruct P as (ss & ds & Hss & Hds & _ & Hs & Ht & _).
    destruct (proj2 Us ss s Hss Hs) as (N & _). split; [apply pair_in; assumption|].
    unfold differs, norm. rewrite X, Y. destruct (teqb x y) eqn:T; [|reflexivity].
    apply teqb_eq in T. destruct (harmful_differs _ _ HM T). }
  set (al := the_alter_postgres src drop s t).
  assert (In al (pl_alters x0)) as I.
  { rewrite L5. apply in_flat_map. exists (s, t). split; [exact P|]. cbn [the_alter]. fold al. unfold recorded.
    destruct (_ && _) eqn:N; [|left; reflexivity]. rewrite !andb_true_iff in N. destruct N as ((((_ & N) & _) & _) & _).
    unfold al in N. cbn [the_alter_postgres al_alter_columns] in N. rewrite (in_not_none _ _ Diff) in N. discriminate N. }
  unfold postgres_steps in E1. invert_binds E1. injection E1 as _ <-.
  destruct (collected_in _ _ _ _ E0 I) as (r & A & Hr).
  unfold alter_steps_postgres in A. invert_binds A. injection A as <-.
  destruct (collected_in (fun '(c, d) => alter_column_postgres flt src (qualify (ct_current src) (al_schema al) (al_table al)) c d) (al_alter_columns al) x2 (a, b)) as (r & A & Hr2).
  { etransitivity; [|exact E1]. apply flatr_same. intros (c & e). reflexivity. }
  { exact Diff. }
  unfold alter_column_postgres in A. rewrite X, Y in A. cbn [bindr] in A.
  assert (teqb x y = false) as T by (destruct (teqb x y) eqn:T; [apply teqb_eq in T; destruct (harmful_differs _ _ HM T)|reflexivity]).
  rewrite T in A. set (q := qualify (ct_current src) (al_schema al) (al_table al)) in *.
  destruct (warn_type q (col_name b) x y) as [|w ws0] eqn:W; [destruct (harmful_warned _ _ _ _ HM W)|].
  assert (Hw : wn_table w = q /\ wn_column w = col_name b) by (apply (warn_type_at q (col_name b) x y); rewrite W; left; reflexivity).
  exists w. split; [|exact Hw].
  apply in_flat_map. eexists. split; [exact Hr|]. cbn [snd]. apply in_or_app. right. apply in_flat_map. exists r. split; [exact Hr2|].
  destruct (if col_notnull a && negb (col_notnull b) then _ else _) as (n1 & w1) in A. injection A as <-. left. reflexivity.
Qed.
