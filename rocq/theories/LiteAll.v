(** All statements of a migration for SQLite. *)
From Coq Require Import Lia.
From Verif Require Import GoStr GoStrFacts ModelCatalog ModelCache CacheFacts ModelDdl ModelDiff ModelDiffSql SpecDiff DiffLookup DiffFacts DiffSelf DiffSqlite SpecApply ApplyFacts SpecLite LiteFacts LitePair LiteRun.

(** ** Lists *)
Lemma NoDup_join : forall A (l1 l2 : list A), NoDup l1 -> NoDup l2 -> (forall x, In x l1 -> ~ In x l2) -> NoDup (l1 ++ l2).
Proof.
  intros A l1 l2 N1 N2 D. induction l1 as [|x l1 IH]; [exact N2|]. inversion N1; subst. cbn. constructor.
  - rewrite in_app_iff. intros [Z|Z]; [auto|exact (D x (or_introl eq_refl) Z)].
  - apply IH; [assumption|]. intros y Hy. apply D. right. exact Hy.
Qed.
Lemma flat_map_app_snd : forall A B (l1 l2 : list (A * list B)), flat_map snd (l1 ++ l2) = flat_map snd l1 ++ flat_map snd l2.
Proof. intros A B l1 l2. induction l1 as [|x l1 IH]; [reflexivity|]. cbn. rewrite IH, app_assoc. reflexivity. Qed.
Lemma flat_map_pairs : forall A B (f : A -> bytes * list B) l, flat_map snd (map f l) = flat_map (fun a => snd (f a)) l.
Proof. intros A B f l. induction l as [|x l IH]; [reflexivity|]. cbn. rewrite IH. reflexivity. Qed.
Lemma flat_map_one : forall A B (f : A -> B) l, flat_map (fun a => [f a]) l = map f l.
Proof. intros A B f l. induction l as [|x l IH]; [reflexivity|]. cbn. rewrite IH. reflexivity. Qed.
Lemma flat_map_same : forall A B (f g : A -> list B) l, (forall a, In a l -> f a = g a) -> flat_map f l = flat_map g l.
Proof. intros A B f g l H. induction l as [|x l IH]; [reflexivity|]. cbn. rewrite (H x (or_introl eq_refl)), IH; [reflexivity|]. intros y Hy. apply H. right. exact Hy. Qed.
Lemma filter_same : forall A (f g : A -> bool) l, (forall a, In a l -> f a = g a) -> filter f l = filter g l.
Proof. intros A f g l H. induction l as [|x l IH]; [reflexivity|]. cbn. rewrite (H x (or_introl eq_refl)), IH; [reflexivity|]. intros y Hy. apply H. right. exact Hy. Qed.

(** ** Blocks, one after the other *)
Section All.
Context (a b : list table).
Hypothesis (SEP : lite_separate a b) (FREE : lite_free a b) (Ua : NoDup (map tb_name a)) (Ub : NoDup (map tb_name b)).
Let ref := references b.
Notation within := (bounded a b).
Notation names l := (map tb_name l).

(** What becomes of the table that is called [n]. *)
Definition good (n : bytes) (o : option ltable) : Prop :=
  match called tb_name b n with
  | Some t => exists lt, o = Some lt /\ lite_agrees_table lt t /\ named_rightly t lt
  | None => o = None
  end.
Definition block_ok (n : bytes) (l : list stmt) (y : ldatabase) : Prop :=
  let z := lite_after ref l y in lite_runs ref l y /\ within z /\ (forall m, m <> n -> z m = y m) /\ good n (z n).
Lemma blocks_run : forall (l : list (bytes * list stmt)) x0 x, NoDup (map fst l) -> within x -> (forall n, In n (map fst l) -> x n = x0 n) ->
  (forall n st, In (n, st) l -> forall y, within y -> y n = x0 n -> block_ok n st y) ->
  let z := lite_after ref (flat_map snd l) x in
  lite_runs ref (flat_map snd l) x /\ within z /\ (forall m, ~ In m (map fst l) -> z m = x m) /\ forall n, In n (map fst l) -> good n (z n).
Proof.
  induction l as [|(n, st) l IH]; intros x0 x N W E H; cbn [flat_map snd map fst].
  - split; [exact Logic.I|]. split; [exact W|]. split; [reflexivity|intros n []].
  - inversion N as [|? ? Nn Nl]; subst. cbn [map fst] in E, Nn.
    destruct (H n st (or_introl eq_refl) x W (E n (or_introl eq_refl))) as (R & W1 & O & G).
    rewrite lite_runs_app, lite_after_app. set (y := lite_after ref st x) in *.
    destruct (IH x0 y Nl W1) as (R2 & W2 & O2 & G2).
    { intros m Hm. rewrite O; [apply E; right; exact Hm|]. intros ->. exact (Nn Hm). }
    { intros m s Hm. apply (H m s). right. exact Hm. }
    split; [split; [exact R|exact R2]|]. split; [exact W2|]. split.
    + intros m Hm. rewrite O2; [apply O; intros ->; apply Hm; left; reflexivity|]. intro Z. apply Hm. right. exact Z.
    + intros m [<-|Hm]; [|apply G2; exact Hm]. rewrite O2; [exact G|exact Nn].
Qed.

Hypothesis (Ta : forall t, In t a -> tidy t) (Tb : forall t, In t b -> tidy t) (Mb : forall t, In t b -> makeable t).
Context (x0 : ldatabase).
Hypothesis (D0 : lite_describes a x0).
Hypothesis PAIRS : forall s t, In s a -> In t b -> tb_name s = tb_name t ->
  lite_faithful s t /\ lite_shared s t /\ lite_added s t /\ lite_noticed s t /\ forall lt, x0 (tb_name s) = Some lt -> lite_inline s t lt.

Lemma starts_within : within x0.
Proof.
  intros m lt E. destruct D0 as (D1 & D2). assert (Hm : In m (names a)) by (apply D1; congruence). apply in_map_iff in Hm. destruct Hm as (s & <- & Hs).
  destruct (D2 s lt Hs E) as (S1 & S2 & S3 & S4). split; [exists s; split; [left; exact Hs|reflexivity]|]. split.
  - intros n i Ei. rewrite S4 in Ei. apply called_some in Ei. destruct Ei as (Hi & <-). exists s. split; [left; exact Hs|]. split; [reflexivity|apply in_map; exact Hi].
  - intros k Hk K. destruct (S2 k Hk) as (c & Hc & (K1 & _ & K3 & _)). exists s, c. split; [left; exact Hs|]. split; [exact Hc|].
    rewrite key_kind in K1. assert (F : foreign c) by (unfold foreign; congruence). split; [exact F|]. rewrite K3, key_table by exact F. reflexivity.
Qed.
Lemma settled_ok : forall t l y, In t b -> settles a b t l y -> block_ok (tb_name t) l y.
Proof.
  intros t l y Ht (R & W & O & G). split; [exact R|]. split; [exact W|]. split; [exact O|]. unfold good. rewrite (called_in tb_name b t Ub Ht). exact G.
Qed.
Lemma drop_ok : forall n y, ~ In n (names b) -> In n (names a) -> within y -> y n = x0 n -> block_ok n [QDropTable (bare n)] y.
Proof.
  intros n y Nb Na W E. split; [|split; [|split]].
  - split; [|exact Logic.I]. cbn [lite_allowed bare snd]. rewrite E. apply D0. exact Na.
  - apply bounded_none. exact W.
  - intros m Hm. apply set_at_other. exact Hm.
  - unfold good. rewrite (proj2 (called_none_map tb_name b n) Nb). apply set_at_same.
Qed.
Lemma none_before : forall t, In t b -> ~ In (tb_name t) (names a) -> x0 (tb_name t) = None.
Proof. intros t Ht N. destruct (x0 (tb_name t)) eqn:E; [|reflexivity]. exfalso. apply N. apply D0. congruence. Qed.
Lemma create_ok : forall t u y, In t b -> resembles u t -> tb_name u = tb_name t -> tb_indexes u = tb_indexes t -> ~ In (tb_name t) (names a) ->
  within y -> y (tb_name t) = x0 (tb_name t) -> block_ok (tb_name t) (QCreateTable (bare (tb_name u)) u :: index_stmts (tb_indexes u)) y.
Proof.
  intros t u y Ht R EN EI N W E. apply settled_ok; [exact Ht|]. apply new_settles; try assumption; [apply Tb; exact Ht|apply Mb; exact Ht|].
  rewrite E. apply none_before; assumption.
Qed.
(** Whether the table is copied. *)
Definition copies (w : sqlite_alter) : bool := match copied w with Ok c => c | _ => false end.
Lemma only_cons_from : forall s t c, In c (only_cons s t) -> In c (tb_constraints s).
Proof. intros s t c H. unfold only_cons in H. apply filter_In in H. tauto. Qed.
Lemma named_has_columns : forall t c, tidy t -> In c (tb_constraints (named_table t)) -> con_columns c <> [].
Proof.
  intros t c T H. rewrite (named_is t) in H by apply T. cbn [with_constraints tb_constraints] in H. apply in_map_iff in H. destruct H as (d & <- & H).
  rewrite named_columns. destruct T as (_ & _ & _ & _ & _ & _ & T & _). apply (T d H).
Qed.
Lemma copied_decided : forall s t w, tidy s -> tidy t -> In w (sqlite_alters true (named_table s) (named_table t)) ->
  w = whole_alter (named_table s) (named_table t) /\ copied w = Ok (copies w)
  /\ (copies w = false -> sa_alter_columns w = []
      /\ (forall c, In c (sa_drop_constraints w) -> kept_alone (sa_is_dropped w) c)
      /\ (forall c, In c (sa_add_constraints w) -> kept_alone (sa_is_added w) c)).
Proof.
  intros s t w Ts Tt H. assert (E : w = whole_alter (named_table s) (named_table t)).
  { destruct (alters_cases (named_table s) (named_table t)) as [(Z & _)|Z]; rewrite Z in H; [destruct H|]. destruct H as [<-|[]]. reflexivity. }
  split; [exact E|]. destruct (copied_ok w) as (c & C & K).
  { intros c. rewrite E. cbn [whole_alter sa_drop_constraints sa_add_constraints]. intros [Hc|Hc]; apply only_cons_from in Hc; [exact (named_has_columns s c Ts Hc)|exact (named_has_columns t c Tt Hc)]. }
  unfold copies. rewrite C. split; [reflexivity|exact K].
Qed.
Definition alter_block (s t : table) : list stmt :=
  flat_map (fun w => alter_stmts_sqlite w (copies w)) (sqlite_alters true (named_table s) (named_table t)).
Lemma alter_ok : forall s t y, In s a -> In t b -> tb_name s = tb_name t -> within y -> y (tb_name t) = x0 (tb_name t) -> block_ok (tb_name t) (alter_block s t) y.
Proof.
  intros s t y Hs Ht SAME W E. pose proof (Ta s Hs) as Ts. pose proof (Tb t Ht) as Tt. pose proof (Mb t Ht) as M.
  destruct (PAIRS s t Hs Ht SAME) as (P1 & P2 & P3 & P4 & P5). destruct D0 as (D1 & D2).
  destruct (x0 (tb_name s)) as [lt|] eqn:L.
  2: { exfalso. apply (proj2 (D1 (tb_name s))); [apply in_map; exact Hs|exact L]. }
  pose proof (D2 s lt Hs L) as S. rewrite SAME in L. rewrite L in E. apply settled_ok; [exact Ht|].
  unfold alter_block. destruct (alters_cases (named_table s) (named_table t)) as [(Z & NO)|Z].
  - rewrite Z. cbn [flat_map]. split; [exact Logic.I|]. split; [exact W|]. split; [reflexivity|]. exists lt. split; [exact E|].
    split; [exact (quiet_agrees s t lt Ts Tt SAME S P1 P4 NO)|]. intros n i Ei. destruct S as (_ & _ & _ & S4). rewrite S4 in Ei.
    apply called_some in Ei. destruct Ei as (Hi & <-). split; [reflexivity|]. destruct Ts as (_ & _ & _ & _ & _ & _ & _ & Ts). destruct (Ts i Hi) as (Q1 & Q2). rewrite Q2, SAME. auto.
  - destruct (copied_decided s t (whole_alter (named_table s) (named_table t)) Ts Tt) as (_ & _ & C); [rewrite Z; left; reflexivity|].
    rewrite Z. cbn [flat_map]. rewrite app_nil_r. destruct (copies _) eqn:CP.
    + cbn [alter_stmts_sqlite whole_alter sa_src sa_dest]. exact (copy_settles a b SEP FREE s t y lt Hs Ht SAME Ts Tt M P2 W E S).
    + destruct (C eq_refl) as (C1 & C2 & C3). exact (place_settles a b SEP Ub s t y lt Hs Ht SAME Ts Tt M P1 P2 P3 (P5 lt eq_refl) W E S C1 C2 C3).
Qed.

(** ** The three parts of a migration *)
Definition new_block (u : table) : list stmt := QCreateTable (bare (tb_name u)) u :: index_stmts (tb_indexes u).
Definition gone : list table := filter (fun t => negb (bmem (tb_name t) (names b))) a.
Definition fresh : list table := filter (fun t => negb (bmem (tb_name t) (names a))) b.
Definition common : list table := filter (fun t => bmem (tb_name t) (names a)) b.
Definition counterpart (t : table) : table := match called tb_name a (tb_name t) with Some s => s | None => t end.
Definition blocks (f : table -> table) : list (bytes * list stmt) :=
  map (fun t => (tb_name t, [QDropTable (bare (tb_name t))])) gone
  ++ map (fun t => (tb_name t, new_block (f t))) fresh
  ++ map (fun t => (tb_name t, alter_block (counterpart t) t)) common.
Definition written_as (f : table -> table) : Prop :=
  forall t, In t b -> resembles (f t) t /\ tb_name (f t) = tb_name t /\ tb_indexes (f t) = tb_indexes t.
Lemma counterpart_in : forall t, In (tb_name t) (names a) -> In (counterpart t) a /\ tb_name (counterpart t) = tb_name t.
Proof.
  intros t H. unfold counterpart. destruct (proj2 (called_is tb_name a (tb_name t)) H) as (s & E). rewrite E. apply called_some in E. exact E.
Qed.
Lemma gone_in : forall n, In n (names gone) <-> In n (names a) /\ ~ In n (names b).
Proof.
  intro n. unfold gone. rewrite in_map_iff. split.
  - intros (t & <- & H). apply filter_In in H. destruct H as (H & E). apply negb_true_iff in E. split; [apply in_map; exact H|]. apply bmem_not_In. exact E.
  - intros (Ha & N). apply in_map_iff in Ha. destruct Ha as (t & <- & Ha). exists t. split; [reflexivity|]. apply filter_In. split; [exact Ha|].
    apply negb_true_iff. apply bmem_not_In. exact N.
Qed.
Lemma fresh_in : forall n, In n (names fresh) <-> In n (names b) /\ ~ In n (names a).
Proof.
  intro n. unfold fresh. rewrite in_map_iff. split.
  - intros (t & <- & H). apply filter_In in H. destruct H as (H & E). apply negb_true_iff in E. split; [apply in_map; exact H|]. apply bmem_not_In. exact E.
  - intros (Ha & N). apply in_map_iff in Ha. destruct Ha as (t & <- & Ha). exists t. split; [reflexivity|]. apply filter_In. split; [exact Ha|].
    apply negb_true_iff. apply bmem_not_In. exact N.
Qed.
Lemma common_in : forall n, In n (names common) <-> In n (names b) /\ In n (names a).
Proof.
  intro n. unfold common. rewrite in_map_iff. split.
  - intros (t & <- & H). apply filter_In in H. destruct H as (H & E). split; [apply in_map; exact H|]. apply bmem_In. exact E.
  - intros (Ha & N). apply in_map_iff in Ha. destruct Ha as (t & <- & Ha). exists t. split; [reflexivity|]. apply filter_In. split; [exact Ha|].
    apply bmem_In. exact N.
Qed.
Lemma block_names : forall f, map fst (blocks f) = names gone ++ names fresh ++ names common.
Proof. intro f. unfold blocks. rewrite !map_app, !map_map. reflexivity. Qed.
Lemma blocks_distinct : forall f, NoDup (map fst (blocks f)).
Proof.
  intro f. rewrite block_names. apply NoDup_join; [apply NoDup_filter_map; exact Ua| |].
  - apply NoDup_join; [apply NoDup_filter_map; exact Ub..|]. intros n H1 H2. apply fresh_in in H1. apply common_in in H2. tauto.
  - intros n H1 H2. apply gone_in in H1. rewrite in_app_iff, fresh_in, common_in in H2. tauto.
Qed.
Lemma blocks_ok : forall f, written_as f -> forall n st, In (n, st) (blocks f) -> forall y, within y -> y n = x0 n -> block_ok n st y.
Proof.
  intros f F n st H y W E. unfold blocks in H. rewrite !in_app_iff, !in_map_iff in H.
  destruct H as [(t & Z & H)|[(t & Z & H)|(t & Z & H)]]; injection Z as <- <-.
  - assert (G : In (tb_name t) (names gone)) by (apply in_map; exact H). apply gone_in in G. apply drop_ok; tauto.
  - assert (G : In (tb_name t) (names fresh)) by (apply in_map; exact H). apply fresh_in in G. apply filter_In in H. destruct H as (H & _).
    destruct (F t H) as (F1 & F2 & F3). apply create_ok; tauto.
  - assert (G : In (tb_name t) (names common)) by (apply in_map; exact H). apply common_in in G. apply filter_In in H. destruct H as (H & _).
    destruct (counterpart_in t (proj2 G)) as (C1 & C2). apply alter_ok; assumption.
Qed.
Lemma all_blocks : forall f, written_as f ->
  let z := lite_after ref (flat_map snd (blocks f)) x0 in
  lite_runs ref (flat_map snd (blocks f)) x0 /\ forall n, good n (z n).
Proof.
  intros f F. destruct (blocks_run (blocks f) x0 x0 (blocks_distinct f) starts_within (fun n _ => eq_refl) (blocks_ok f F)) as (R & W & O & G).
  split; [exact R|]. intro n. destruct (in_dec (list_eq_dec Ascii.ascii_dec) n (map fst (blocks f))) as [H|H]; [apply G; exact H|].
  rewrite (O n H). rewrite block_names, !in_app_iff, gone_in, fresh_in, common_in in H.
  assert (Na : ~ In n (names a)) by (intro Z; destruct (in_dec (list_eq_dec Ascii.ascii_dec) n (names b)); tauto).
  assert (Nb : ~ In n (names b)) by tauto.
  unfold good. rewrite (proj2 (called_none_map tb_name b n) Nb). destruct (x0 n) eqn:E; [|reflexivity]. exfalso. apply Na. apply D0. congruence.
Qed.
End All.

(** ** Agreement *)
Section Good.
Context (b : list table) (Ub : NoDup (map tb_name b)).
Lemma good_agrees : forall y, (forall n, good b n (y n)) -> lite_agrees y b.
Proof.
  intros y G. split.
  - intro n. specialize (G n). unfold good in G. destruct (called tb_name b n) as [t|] eqn:C.
    + destruct G as (lt & E & _). apply called_some in C. destruct C as (Ht & <-). split; [intros _; apply in_map; exact Ht|intros _; congruence].
    + split; [intro Z; contradiction|]. intro H. exfalso. exact (proj1 (called_none_map tb_name b n) C H).
  - intros t lt Ht E. specialize (G (tb_name t)). unfold good in G. rewrite (called_in tb_name b t Ub Ht) in G. destruct G as (lt' & E' & A & _). congruence.
Qed.

(** The catalog that is read from such a database. *)
Definition read_column (lt : ltable) (c : column) : column :=
  match lt_columns lt (col_name c) with
  | Some l => Column (col_schema c) (col_table c) (col_name c) (lc_type l) [] [] [] [] false (lc_notnull l) false false false [] (lc_default l) false false [] false [] false
  | None => c
  end.
Definition read_index (lt : ltable) (i : index) : index := match lt_indexes lt (ix_name i) with Some j => j | None => i end.
Definition read_table (y : ldatabase) (t : table) : table :=
  match y (tb_name t) with
  | Some lt => Table [] (tb_name t) [] false (map (read_column lt) (tb_columns t)) (tb_constraints t) (map (read_index lt) (tb_indexes t)) false
  | None => t
  end.
Context (Tb : forall t, In t b -> tidy t).
Lemma read_name : forall y t, tb_name (read_table y t) = tb_name t.
Proof. intros y t. unfold read_table. destruct (y (tb_name t)); reflexivity. Qed.
Lemma read_names : forall y, map tb_name (map (read_table y) b) = map tb_name b.
Proof. intro y. rewrite map_map. apply map_ext. apply read_name. Qed.
Lemma read_column_name : forall lt c, col_name (read_column lt c) = col_name c.
Proof. intros lt c. unfold read_column. destruct (lt_columns lt (col_name c)); reflexivity. Qed.
Lemma read_column_names : forall lt l, map col_name (map (read_column lt) l) = map col_name l.
Proof. intros lt l. rewrite map_map. apply map_ext. apply read_column_name. Qed.
Lemma called_map : forall A (name : A -> bytes) (f : A -> A) l n, (forall c, In c l -> name (f c) = name c) -> called name (map f l) n = option_map f (called name l n).
Proof.
  intros A name f l n H. unfold called. induction l as [|c l IH]; [reflexivity|]. cbn [map find]. rewrite (H c (or_introl eq_refl)).
  destruct (beqb _ _); [reflexivity|]. apply IH. intros d Hd. apply H. right. exact Hd.
Qed.
Lemma read_index_name : forall t lt i, lite_agrees_table lt t -> named_rightly t lt -> In i (tb_indexes t) ->
  ix_name (read_index lt i) = ix_name i /\ ix_table (read_index lt i) = tb_name t /\ ix_ignore (read_index lt i) = false /\ lt_indexes lt (ix_name i) = Some (read_index lt i).
Proof.
  intros t lt i A R Hi. unfold read_index. destruct (lt_indexes lt (ix_name i)) as [j|] eqn:E.
  - destruct (R _ _ E) as (R1 & R2 & R3). auto.
  - exfalso. destruct A as (_ & _ & _ & _ & A & _). apply A in E. apply (proj1 (called_none ix_name (tb_indexes t) (ix_name i)) E i Hi). reflexivity.
Qed.
Lemma read_tidy : forall y t, (forall n, good b n (y n)) -> In t b -> tidy (read_table y t).
Proof.
  intros y t G Ht. pose proof (Tb t Ht) as (T1 & T2 & T3 & T4 & T5 & T6 & T7 & T8). specialize (G (tb_name t)). unfold good in G.
  rewrite (called_in tb_name b t Ub Ht) in G. destruct G as (lt & E & A & R). unfold read_table. rewrite E. unfold tidy.
  cbn [tb_schema tb_ignore tb_name tb_columns tb_constraints tb_indexes]. split; [reflexivity|]. split; [reflexivity|]. split.
  { intro V. apply is_virtual_spec in V. discriminate V. }
  rewrite read_column_names. split; [exact T4|]. split.
  { rewrite map_map. erewrite map_ext_in; [exact T5|]. intros i Hi. apply (read_index_name t lt i A R Hi). }
  split. { intros c Hc. apply in_map_iff in Hc. destruct Hc as (d & <- & Hd). unfold read_column. destruct (lt_columns lt (col_name d)); [reflexivity|apply T6; exact Hd]. }
  split; [exact T7|]. intros i Hi. apply in_map_iff in Hi. destruct Hi as (j & <- & Hj). destruct (read_index_name t lt j A R Hj) as (_ & R2 & R3 & _). auto.
Qed.
Lemma read_shows : forall y t lt, (forall n, good b n (y n)) -> In t b -> y (tb_name t) = Some lt -> lite_shows (read_table y t) lt.
Proof.
  intros y t lt G Ht E. specialize (G (tb_name t)). unfold good in G. rewrite (called_in tb_name b t Ub Ht) in G. destruct G as (lt' & E' & A & R).
  assert (lt' = lt) as -> by congruence. clear E'. unfold read_table. rewrite E. unfold lite_shows. cbn [tb_columns tb_constraints tb_indexes].
  pose proof A as (A1 & _ & A3 & A4 & A5 & _). split; [|split; [exact A3|split; [exact A4|]]]; intro n.
  - rewrite called_map by (intros c _; apply read_column_name). specialize (A1 n). destruct (called col_name (tb_columns t) n) as [c|] eqn:C; cbn [option_map].
    + apply called_some in C. destruct C as (_ & <-). unfold read_column. destruct (lt_columns lt (col_name c)) as [[ty nn df]|] eqn:L; [reflexivity|]. discriminate (proj1 A1 eq_refl).
    + apply A1. reflexivity.
  - rewrite called_map by (intros i Hi; apply (read_index_name t lt i A R Hi)). specialize (A5 n). destruct (called ix_name (tb_indexes t) n) as [i|] eqn:C; cbn [option_map].
    + apply called_some in C. destruct C as (Hi & <-). apply (read_index_name t lt i A R Hi).
    + apply A5. reflexivity.
Qed.
Definition read_catalog (y : ldatabase) : catalog := Catalog SQLite [] [] [] [Schema [] (map (read_table y) b) false].
Lemma read_tables : forall y, tables_in (read_catalog y) = map (read_table y) b.
Proof. intro y. cbn. apply app_nil_r. Qed.
Lemma read_ok : forall y, (forall n, good b n (y n)) -> lite_orderly (read_catalog y) /\ lite_describes (tables_in (read_catalog y)) y.
Proof.
  intros y G. unfold lite_orderly. rewrite read_tables. split.
  - split; [split; [cbn; lia|]; intros s [<-|[]]; split; reflexivity|]. rewrite read_names. split; [exact Ub|].
    intros t Ht. apply in_map_iff in Ht. destruct Ht as (u & <- & Hu). apply (read_tidy y u G Hu).
  - split.
    + rewrite read_names. apply (good_agrees y G).
    + intros t lt Ht E. apply in_map_iff in Ht. destruct Ht as (u & <- & Hu). rewrite read_name in E. apply read_shows; assumption.
Qed.
End Good.

(** ** The statements of a migration *)
Lemma orderly_schemas : forall c, lite_orderly c -> ct_schemas c = [] /\ tables_in c = [] \/ exists s, ct_schemas c = [s] /\ tables_in c = sc_tables s.
Proof.
  intros c ((L & _) & _). unfold tables_in. destruct (ct_schemas c) as [|s [|s' l]]; [left; auto|right|cbn in L; lia].
  exists s. split; [reflexivity|]. cbn. apply app_nil_r.
Qed.
Lemma orderly_unique : forall c, lite_orderly c -> unique_tables (ct_schemas c).
Proof.
  intros c O. pose proof O as ((L & N) & U & T). destruct (orderly_schemas c O) as [(E & _)|(s & E & F)].
  - rewrite E. split; [constructor|intros s []].
  - rewrite E in *. rewrite F in *. split; [repeat constructor; intros []|]. intros s' [<-|[]]. split; [exact U|]. intros t Ht. destruct (N s (or_introl eq_refl)) as (N1 & _).
    rewrite N1. apply (T t Ht).
Qed.
Lemma tidy_ordinary : forall t, tidy t -> is_virtual t = false.
Proof. intros t T. destruct (is_virtual t) eqn:V; [|reflexivity]. exfalso. apply is_virtual_spec in V. apply T. exact V. Qed.
Lemma named_ordinary : forall t, tidy t -> ordinary (named_table t) = true.
Proof.
  intros t T. rewrite (named_is t) by apply T. unfold ordinary, is_virtual. cbn [with_constraints tb_ignore tb_virtual tb_sql].
  pose proof (tidy_ordinary t T) as V. unfold is_virtual in V. rewrite V. destruct T as (_ & T & _). rewrite T. reflexivity.
Qed.
Lemma find_named : forall s n, (forall t, In t (sc_tables s) -> tidy t) -> NoDup (map tb_name (sc_tables s)) ->
  find_table (named_schema s) n = option_map named_table (called tb_name (sc_tables s) n).
Proof.
  intros s n T U. unfold find_table. cbn [named_schema with_tables sc_tables].
  rewrite (pick_called tb_name tb_ignore).
  - apply called_map. intros t _. apply named_table_name.
  - rewrite map_map. erewrite map_ext; [exact U|]. apply named_table_name.
  - intros t Ht. apply in_map_iff in Ht. destruct Ht as (u & <- & Hu). rewrite (named_is u) by apply (T u Hu). apply (T u Hu).
Qed.
Lemma none_called : forall l n, is_none (option_map named_table (called tb_name l n)) = negb (bmem n (map tb_name l)).
Proof.
  intros l n. destruct (called tb_name l n) as [t|] eqn:E; cbn [option_map is_none].
  - apply called_some in E. destruct E as (Ht & <-). rewrite (proj2 (bmem_In _ _)); [reflexivity|]. apply in_map. exact Ht.
  - rewrite (proj2 (bmem_not_In _ _)); [reflexivity|]. apply (called_none_map tb_name). exact E.
Qed.
Lemma dropped_named : forall s d, (forall t, In t (sc_tables s) -> tidy t) -> (forall t, In t (sc_tables d) -> tidy t) -> NoDup (map tb_name (sc_tables d)) ->
  dropped_tables (named_schema s) (named_schema d) = map named_table (gone (sc_tables s) (sc_tables d)).
Proof.
  intros s d Ts Td Ud. unfold dropped_tables, gone. cbn [named_schema with_tables sc_tables] in *. rewrite filter_map. f_equal. apply filter_same. intros t Ht.
  rewrite (named_ordinary t (Ts t Ht)), named_table_name. change (with_tables d (map named_table (sc_tables d))) with (named_schema d).
  rewrite (find_named d _ Td Ud). apply none_called.
Qed.
Lemma altered_named : forall s d, (forall t, In t (sc_tables s) -> tidy t) -> NoDup (map tb_name (sc_tables s)) -> (forall t, In t (sc_tables d) -> tidy t) ->
  altered_tables true (named_schema s) (named_schema d)
  = flat_map (fun t => sqlite_alters true (named_table (counterpart (sc_tables s) t)) (named_table t)) (common (sc_tables s) (sc_tables d)).
Proof.
  intros s d Ts Us Td. unfold altered_tables, common.
  rewrite filter_all by (intros t Ht; cbn [named_schema with_tables sc_tables] in Ht; apply in_map_iff in Ht; destruct Ht as (u & <- & Hu); apply named_ordinary; apply Td; exact Hu).
  cbn [named_schema with_tables sc_tables]. change (with_tables s (map named_table (sc_tables s))) with (named_schema s).
  clear Td. induction (sc_tables d) as [|t l IH]; [reflexivity|]. cbn [map flat_map filter]. rewrite IH, named_table_name, (find_named s _ Ts Us).
  unfold counterpart at 2. pose proof (none_called (sc_tables s) (tb_name t)) as N. unfold counterpart.
  destruct (called tb_name (sc_tables s) (tb_name t)) as [u|] eqn:E; cbn [option_map is_none] in *.
  - destruct (bmem _ _); [|discriminate]. cbn [flat_map]. rewrite E. reflexivity.
  - destruct (bmem _ _); [discriminate|]. reflexivity.
Qed.

Lemma decided_all : forall l, (forall w, In w l -> copied w = Ok (copies w)) ->
  flatr (fun w => bindr (copied w) (fun c => Ok [(w, c)])) l = Ok (map (fun w => (w, copies w)) l).
Proof.
  induction l as [|w l IH]; intro H; [reflexivity|]. cbn [flatr map]. rewrite (H w (or_introl eq_refl)). cbn [bindr]. rewrite IH; [reflexivity|].
  intros v Hv. apply H. right. exact Hv.
Qed.
Definition within_pragmas (p : bool) (l : list stmt) : list stmt := (if p then [QPragma true] else []) ++ l ++ (if p then [QPragma false] else []).
Lemma pragmas_harmless : forall ref p l x, lite_runs ref l x -> lite_runs ref (within_pragmas p l) x /\ lite_after ref (within_pragmas p l) x = lite_after ref l x.
Proof.
  intros ref p l x H. unfold within_pragmas. destruct p; cbn [app].
  - split.
    + split; [exact Logic.I|]. cbn [lite_effect]. apply lite_runs_app. split; [exact H|]. split; exact Logic.I.
    + rewrite lite_after_cons, lite_after_app. reflexivity.
  - rewrite app_nil_r. auto.
Qed.
Lemma migration_stmts : forall src dest prefix flt, lite_orderly src -> lite_orderly dest ->
  let a := tables_in src in let b := tables_in dest in
  exists files p f, results SQLite flt prefix src dest true = Ok (files, []) /\ forward files = within_pragmas p (flat_map snd (blocks a b f))
    /\ (f = named_table \/ f = fun t => t) /\ (flat_map snd (blocks a b f) = [] -> p = false -> files = []).
Proof.
  intros src dest prefix flt Os Od a b. pose proof Os as (_ & Us & Ts). pose proof Od as (_ & Ud & Td). fold a in Us, Ts. fold b in Ud, Td.
  assert (FIN : forall p f plan, new_sqlite_migration src dest true = Ok plan -> sqlite_stmts plan = Ok (within_pragmas p (flat_map snd (blocks a b f))) ->
    (f = named_table \/ f = fun t => t) ->
    exists files p f, results SQLite flt prefix src dest true = Ok (files, []) /\ forward files = within_pragmas p (flat_map snd (blocks a b f))
    /\ (f = named_table \/ f = fun t => t) /\ (flat_map snd (blocks a b f) = [] -> p = false -> files = [])).
  { intros p f plan E1 E2 F. set (l := within_pragmas p (flat_map snd (blocks a b f))) in *.
    exists (if none l then [] else [File (prefix ++ B".sql") false l]), p, f. cbn [results]. rewrite E1. cbn [bindr]. rewrite E2. cbn [bindr]. split; [reflexivity|].
    split; [|split; [exact F|]].
    - change (within_pragmas p (flat_map snd (blocks a b f))) with l. clearbody l. destruct (none l) eqn:N; [apply none_nil in N; rewrite N; reflexivity|]. unfold forward. cbn. apply app_nil_r.
    - intros Z ->. unfold l, within_pragmas. rewrite Z. reflexivity. }
  destruct (orderly_schemas src Os) as [(Es & Fs)|(s & Es & Fs)]; destruct (orderly_schemas dest Od) as [(Ed & Fd)|(d & Ed & Fd)].
  - apply (FIN false named_table (SqlitePlan [] [] [])); [|unfold a, b; rewrite Fs, Fd; reflexivity|left; reflexivity]. unfold new_sqlite_migration. rewrite Es, Ed. reflexivity.
  - apply (FIN false (fun t => t) (SqlitePlan [] b [])); [| |right; reflexivity].
    + unfold new_sqlite_migration. rewrite Es, Ed. f_equal. f_equal. unfold b. rewrite Fd. apply filter_all. intros t Ht. rewrite (tidy_ordinary t); [reflexivity|]. apply Td. unfold b. rewrite Fd. exact Ht.
    + cbn [sqlite_stmts sp_alters flatr bindr existsb sp_drop_tables sp_create_tables map flat_map app]. f_equal. unfold within_pragmas. cbn [app].
      rewrite !app_nil_r. unfold blocks. unfold a. rewrite Fs. cbn [gone filter map app].
      rewrite flat_map_app_snd. assert (C : common [] b = []) by (apply filter_none; reflexivity). rewrite C. cbn [map flat_map]. rewrite app_nil_r.
      unfold fresh. rewrite filter_all by reflexivity. rewrite flat_map_pairs. reflexivity.
  - apply (FIN false named_table (SqlitePlan a [] [])); [| |left; reflexivity].
    + unfold new_sqlite_migration. rewrite Es, Ed. f_equal. f_equal. unfold a. rewrite Fs. apply filter_all. intros t Ht. rewrite (tidy_ordinary t); [reflexivity|]. apply Ts. unfold a. rewrite Fs. exact Ht.
    + cbn [sqlite_stmts sp_alters flatr bindr existsb sp_drop_tables sp_create_tables map flat_map app]. f_equal. unfold within_pragmas. cbn [app].
      rewrite !app_nil_r. unfold blocks, b. rewrite Fd. cbn [fresh common filter map app]. rewrite app_nil_r.
      unfold gone. rewrite filter_all by reflexivity. rewrite flat_map_pairs. symmetry. apply flat_map_one.
  - assert (Ts' : forall t, In t (sc_tables s) -> tidy t) by (intros t Ht; apply Ts; unfold a; rewrite Fs; exact Ht).
    assert (Td' : forall t, In t (sc_tables d) -> tidy t) by (intros t Ht; apply Td; unfold b; rewrite Fd; exact Ht).
    assert (Us' : NoDup (map tb_name (sc_tables s))) by (rewrite <- Fs; exact Us). assert (Ud' : NoDup (map tb_name (sc_tables d))) by (rewrite <- Fd; exact Ud).
    set (ws := altered_tables true (named_schema s) (named_schema d)).
    apply (FIN (existsb snd (map (fun w => (w, copies w)) ws)) named_table (SqlitePlan (dropped_tables (named_schema s) (named_schema d)) (dropped_tables (named_schema d) (named_schema s)) ws)); [| |left; reflexivity].
    + rewrite (sqlite_plan_ok src dest true s [] d [] Es Ed) by (apply orderly_unique; assumption). reflexivity.
    + unfold sqlite_stmts. cbn [sp_alters sp_drop_tables sp_create_tables]. rewrite decided_all.
      2: { intros w Hw. unfold ws in Hw. rewrite (altered_named s d Ts' Us' Td') in Hw. apply in_flat_map in Hw. destruct Hw as (t & Ht & Hw).
           assert (Hn : In (tb_name t) (map tb_name (common (sc_tables s) (sc_tables d)))) by (apply in_map; exact Ht).
           apply common_in in Hn. apply filter_In in Ht. destruct Ht as (Ht & _). destruct (counterpart_in (sc_tables s) t (proj2 Hn)) as (C & _).
           apply (copied_decided (counterpart (sc_tables s) t) t w (Ts' _ C) (Td' t Ht) Hw). }
      cbn [bindr]. f_equal. unfold within_pragmas. f_equal. rewrite !app_assoc. f_equal. rewrite <- !app_assoc.
      unfold blocks. rewrite !flat_map_app_snd, !flat_map_pairs. unfold a, b. rewrite Fs, Fd. f_equal; [|f_equal].
      * rewrite (dropped_named s d Ts' Td' Ud'), map_map. cbn [snd]. rewrite flat_map_one. apply map_ext. intro t. rewrite named_table_name. reflexivity.
      * rewrite (dropped_named d s Td' Ts' Us'). unfold gone, fresh. induction (filter _ (sc_tables d)) as [|t l IH]; [reflexivity|]. cbn [map flat_map snd]. rewrite IH. reflexivity.
      * unfold ws. rewrite (altered_named s d Ts' Us' Td'). induction (common _ _) as [|t l IH]; [reflexivity|]. cbn [flat_map snd]. rewrite map_app, flat_map_app, IH. f_equal.
        unfold alter_block. induction (sqlite_alters _ _ _) as [|w ws' IHw]; [reflexivity|]. cbn [map flat_map]. rewrite IHw. reflexivity.
Qed.

Lemma written_named : forall b, (forall t, In t b -> tidy t) -> (forall t, In t b -> makeable t) -> forall f, f = named_table \/ (f = fun t => t) -> written_as b f.
Proof.
  intros b T M f [->| ->] t Ht.
  - rewrite (named_is t) by apply (T t Ht). split; [|split; reflexivity]. split; [reflexivity|]. split; [exists named_constraint; split; [apply named_renames|reflexivity]|apply (M t Ht)].
  - split; [|split; reflexivity]. split; [reflexivity|]. split; [exists (fun c => c); split; [apply id_renames|rewrite map_id; reflexivity]|apply (M t Ht)].
Qed.

(** ** Running it *)
Theorem lite_migration : forall src dest x prefix flt, lite_suitable src dest x -> lite_describes (tables_in src) x ->
  exists files, results SQLite flt prefix src dest true = Ok (files, [])
    /\ let ref := references (tables_in dest) in
       lite_runs ref (forward files) x /\ forall n, good (tables_in dest) n (lite_after ref (forward files) x n).
Proof.
  intros src dest x prefix flt (Os & Od & M & SEP & FREE & P) D.
  destruct (migration_stmts src dest prefix flt Os Od) as (files & p & f & E & F & W & _). exists files. split; [exact E|]. cbn zeta. rewrite F.
  assert (Tb : forall t, In t (tables_in dest) -> tidy t) by apply Od. assert (Ta : forall t, In t (tables_in src) -> tidy t) by apply Os.
  destruct (all_blocks (tables_in src) (tables_in dest) SEP FREE (proj1 (proj2 Os)) (proj1 (proj2 Od)) Ta Tb M x D P f (written_named _ Tb M f W)) as (R & G).
  destruct (pragmas_harmless _ p _ _ R) as (R' & A). split; [exact R'|]. rewrite A. exact G.
Qed.

(** ** Nothing is left to do *)
Theorem lite_quiet : forall src dest y prefix flt, lite_orderly src -> lite_orderly dest -> lite_describes (tables_in src) y -> lite_agrees y (tables_in dest) ->
  results SQLite flt prefix src dest true = Ok ([], []).
Proof.
  intros src dest y prefix flt Os Od (D1 & D2) (A1 & A2).
  assert (N : forall n, In n (map tb_name (tables_in src)) <-> In n (map tb_name (tables_in dest))) by (intro n; rewrite <- D1; apply A1).
  assert (S : forall l, (forall n, In n (map tb_name l) -> False) -> l = []) by (intros [|t l] H; [reflexivity|exfalso; apply (H (tb_name t)); left; reflexivity]).
  cbn [results]. destruct (orderly_schemas src Os) as [(Es & Fs)|(s & Es & Fs)]; destruct (orderly_schemas dest Od) as [(Ed & Fd)|(d & Ed & Fd)].
  - unfold new_sqlite_migration. rewrite Es, Ed. reflexivity.
  - unfold new_sqlite_migration. rewrite Es, Ed. rewrite Fs, Fd in N. rewrite (S (sc_tables d)) by (intros n H; apply N in H; exact H). reflexivity.
  - unfold new_sqlite_migration. rewrite Es, Ed. rewrite Fs, Fd in N. rewrite (S (sc_tables s)) by (intros n H; apply N in H; exact H). reflexivity.
  - pose proof Os as (_ & Us & Ts). pose proof Od as (_ & Ud & Td). rewrite Fs, Fd in *.
    rewrite (sqlite_plan_ok src dest true s [] d [] Es Ed) by (apply orderly_unique; assumption). cbn [keep].
    rewrite (dropped_named s d Ts Td Ud), (dropped_named d s Td Ts Us), (altered_named s d Ts Us Td).
    rewrite (S (gone (sc_tables s) (sc_tables d))) by (intros n H; apply gone_in in H; rewrite N in H; tauto).
    rewrite (S (gone (sc_tables d) (sc_tables s))) by (intros n H; apply gone_in in H; rewrite N in H; tauto).
    rewrite flat_map_none; [reflexivity|]. intros t Ht.
    assert (Hn : In (tb_name t) (map tb_name (common (sc_tables s) (sc_tables d)))) by (apply in_map; exact Ht).
    apply common_in in Hn. apply filter_In in Ht. destruct Ht as (Ht & _). destruct (counterpart_in (sc_tables s) t (proj2 Hn)) as (C & E).
    destruct (y (tb_name t)) as [lt|] eqn:L; [|exfalso; apply (proj2 (A1 (tb_name t))); [apply Hn|exact L]].
    apply no_alters. apply (agrees_quiet _ t lt (Ts _ C) (Td t Ht) E); [apply D2; [exact C|rewrite E; exact L]|apply A2; [exact Ht|exact L]].
Qed.
