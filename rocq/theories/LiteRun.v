(** The statements for one table. *)
From Coq Require Import Lia.
From Verif Require Import GoStr GoStrFacts ModelCatalog ModelCache CacheFacts ModelDdl ModelDiff ModelDiffSql SpecDiff DiffLookup DiffFacts DiffSelf DiffSqlite SpecApply ApplyFacts SpecLite LiteFacts LitePair.

(** ** CREATE TABLE *)
(** The table is written with these constraints or with others names for them. *)
Definition renames (f : constraint -> constraint) : Prop :=
  forall c, con_type (f c) = con_type c /\ con_columns (f c) = con_columns c /\ con_ignore (f c) = con_ignore c /\ key_of false (f c) = key_of false c.
Definition resembles (u t : table) : Prop :=
  tb_columns u = tb_columns t /\ (exists f, renames f /\ tb_constraints u = map f (tb_constraints t)) /\ tb_sql u = [].
Lemma named_renames : renames named_constraint.
Proof. intro c. split; [apply named_type|]. split; [apply named_columns|]. split; [apply named_ignore|apply key_named]. Qed.
Lemma id_renames : renames (fun c => c).
Proof. intro c. repeat split. Qed.
Lemma filter_all : forall A (f : A -> bool) l, (forall a, In a l -> f a = true) -> filter f l = l.
Proof. intros A f. induction l as [|a l IH]; intro H; [reflexivity|]. cbn. rewrite (H a (or_introl eq_refl)), IH; [reflexivity|]. intros b Hb. apply H. right. exact Hb. Qed.
Lemma created_all : forall u t, tidy t -> makeable t -> resembles u t -> created_columns u = tb_columns t.
Proof.
  intros u t T M (R & _). unfold created_columns. rewrite R. apply filter_all. intros c Hc.
  destruct M as (_ & _ & M & _). destruct (M c Hc) as (_ & _ & G & _). rewrite G. cbn [andb]. rewrite orb_false_r. apply negb_true_iff. apply T. exact Hc.
Qed.
Lemma kind_key : forall c, a_key c -> beqb (con_type c) PRIMARY_KEY || beqb (con_type c) UNIQUE || beqb (con_type c) FOREIGN_KEY = true.
Proof. intros c [[K|K]|K]; rewrite K; reflexivity. Qed.
Lemma single_named : forall f c, renames f -> single_primary (f c) = single_primary c.
Proof. intros f c F. unfold single_primary. destruct (F c) as (A & B & _). rewrite A, B. reflexivity. Qed.

Lemma written_keys_in : forall u t k, tidy t -> makeable t -> resembles u t ->
  (In k (made_keys u) <->
   (exists c, In c (tb_columns t) /\ col_pkey c = true /\ k = LKey PRIMARY_KEY [col_name c] [] [] true)
   \/ exists c, In c (tb_constraints t) /\ single_primary c = false /\ k = key_of false c).
Proof.
  intros u t k T M R. unfold made_keys. rewrite (created_all u t T M R). destruct R as (_ & (f & FF & R) & _). rewrite R, in_app_iff, !in_map_iff. split.
  - intros [(c & <- & H)|(c & <- & H)]; apply filter_In in H; destruct H as (H & E).
    + left. exists c. auto.
    + right. apply in_map_iff in H. destruct H as (c0 & <- & H). exists c0. destruct (FF c0) as (_ & _ & _ & KF). rewrite KF. split; [exact H|].
      rewrite (single_named f c0 FF) in E. destruct (single_primary c0); [|auto]. cbn [negb] in E. rewrite andb_false_r in E. discriminate.
  - intros [(c & H & E & ->)|(c & H & E & ->)]; [left|right].
    + exists c. split; [reflexivity|]. apply filter_In. auto.
    + exists (f c). destruct (FF c) as (KT & _ & KI & KF). rewrite KF. split; [reflexivity|]. apply filter_In. split; [apply in_map; exact H|].
      rewrite (single_named f c FF), E, KI, KT. destruct T as (_ & _ & _ & _ & _ & _ & T & _). destruct (T c H) as (I & _ & K & _). rewrite I, (kind_key c K). reflexivity.
Qed.
Lemma single_is : forall c, single_primary c = true -> primary c /\ exists n, con_columns c = [n].
Proof.
  intros c H. unfold single_primary in H. apply andb_true_iff in H. destruct H as (A & B). split; [apply beqb_eq; exact A|].
  destruct (con_columns c) as [|n [|m r]]; try discriminate. exists n. reflexivity.
Qed.
Lemma primary_key_of : forall i c n, primary c -> con_columns c = [n] -> key_of i c = LKey PRIMARY_KEY [n] [] [] i.
Proof. intros i c n P E. unfold key_of. rewrite P, E. reflexivity. Qed.
Lemma made_keys_sound : forall u t k, tidy t -> makeable t -> resembles u t -> In k (made_keys u) ->
  exists c, In c (tb_constraints t) /\ same_key k (key_of false c).
Proof.
  intros u t k T M R H. apply (written_keys_in u t k T M R) in H. destruct H as [(c & H & E & ->)|(c & H & E & ->)].
  - destruct M as (_ & _ & M & _). destruct (M c H) as (_ & _ & _ & _ & _ & F & _). apply F in E. destruct E as (d & Hd & P & Ec).
    exists d. split; [exact Hd|]. rewrite (primary_key_of _ d _ P Ec). repeat split.
  - exists c. split; [exact H|apply same_key_refl].
Qed.
Lemma made_keys_complete : forall u t c, tidy t -> makeable t -> resembles u t -> In c (tb_constraints t) ->
  exists k, In k (made_keys u) /\ same_key k (key_of false c).
Proof.
  intros u t c T M R H. destruct (single_primary c) eqn:S.
  - apply single_is in S. destruct S as (P & n & En). destruct T as (T0 & T1 & T2 & T3 & T4 & T5 & T6 & T7). destruct (T6 c H) as (_ & _ & _ & _ & I).
    specialize (I n). rewrite En in I. specialize (I (or_introl eq_refl)). apply in_map_iff in I. destruct I as (q & Eq & Hq).
    exists (LKey PRIMARY_KEY [n] [] [] true). split; [|rewrite (primary_key_of _ c n P En); repeat split].
    apply (written_keys_in u t _ (conj T0 (conj T1 (conj T2 (conj T3 (conj T4 (conj T5 (conj T6 T7))))))) M R). left. exists q. split; [exact Hq|]. split; [|rewrite Eq; reflexivity].
    destruct M as (_ & _ & M & _). destruct (M q Hq) as (_ & _ & _ & _ & _ & F & _). apply F. exists c. rewrite Eq. auto.
  - exists (key_of false c). split; [|apply same_key_refl]. apply (written_keys_in u t _ T M R). right. exists c. auto.
Qed.

Lemma few : forall A (l : list A), (forall a b, In a l -> In b l -> a = b) -> NoDup l -> List.length l <= 1.
Proof.
  intros A [|a [|b l]] H N; cbn; try lia. exfalso. inversion N as [|x y N1 N2]; subst. apply N1. left. symmetry. apply H; [left; reflexivity|right; left; reflexivity].
Qed.
Lemma NoDup_filter_map : forall A B (f : A -> B) p l, NoDup (map f l) -> NoDup (map f (filter p l)).
Proof.
  intros A B f p. induction l as [|a l IH]; intro N; [constructor|]. inversion N as [|x y N1 N2]; subst. cbn. destruct (p a); [|exact (IH N2)].
  cbn. constructor; [|exact (IH N2)]. intro Z. apply N1. apply in_map_iff in Z. destruct Z as (b & E & Hb). apply filter_In in Hb. rewrite <- E. apply in_map. apply Hb.
Qed.
Lemma filter_map : forall A B (f : A -> B) (p : B -> bool) l, filter p (map f l) = map f (filter (fun a => p (f a)) l).
Proof. intros A B f p. induction l as [|a l IH]; [reflexivity|]. cbn. destruct (p (f a)); cbn; rewrite IH; reflexivity. Qed.
Lemma one_primary : forall u t, tidy t -> makeable t -> resembles u t ->
  List.length (filter (fun k => beqb (lk_kind k) PRIMARY_KEY) (made_keys u)) <= 1.
Proof.
  intros u t T M R. unfold made_keys. rewrite (created_all u t T M R). destruct R as (_ & (f & FF & R) & _). rewrite R, filter_app, app_length, !filter_map, !map_length.
  pose proof M as (_ & _ & M1 & M2 & _).
  (* the constraints that are written *)
  set (p := fun a => beqb (lk_kind (key_of false a)) PRIMARY_KEY).
  set (w := fun c => negb (con_ignore c) && negb (single_primary c) && (beqb (con_type c) PRIMARY_KEY || beqb (con_type c) UNIQUE || beqb (con_type c) FOREIGN_KEY)).
  assert (L : List.length (filter (fun a => p (f a)) (filter (fun a => w (f a)) (tb_constraints t)))
              <= List.length (filter (fun c => beqb (con_type c) PRIMARY_KEY && negb (single_primary c)) (tb_constraints t))).
  { rewrite filter_filter. clear - p w FF. induction (tb_constraints t) as [|c l IH]; [cbn; lia|]. cbn [filter].
    unfold p at 1, w at 1. destruct (FF c) as (KT & _ & KI & KF). rewrite KF, key_kind, KT, (single_named f c FF), KI.
    destruct (beqb (con_type c) PRIMARY_KEY), (single_primary c), (con_ignore c), (beqb (con_type c) UNIQUE), (beqb (con_type c) FOREIGN_KEY); cbn [negb andb orb List.length]; lia. }
  assert (F : List.length (filter (fun c => beqb (con_type c) PRIMARY_KEY) (tb_constraints t))
              = List.length (filter (fun c => beqb (con_type c) PRIMARY_KEY && single_primary c) (tb_constraints t))
                + List.length (filter (fun c => beqb (con_type c) PRIMARY_KEY && negb (single_primary c)) (tb_constraints t))).
  { clear. induction (tb_constraints t) as [|c l IH]; [reflexivity|]. cbn [filter]. destruct (beqb (con_type c) PRIMARY_KEY), (single_primary c); cbn [negb andb List.length]; lia. }
  assert (C : List.length (filter col_pkey (tb_columns t)) <= List.length (filter (fun c => beqb (con_type c) PRIMARY_KEY && single_primary c) (tb_constraints t))).
  { destruct (filter col_pkey (tb_columns t)) as [|q l] eqn:Q; [cbn; lia|].
    assert (P : forall x, In x (q :: l) -> In x (tb_columns t) /\ exists k, In k (filter (fun c => beqb (con_type c) PRIMARY_KEY && single_primary c) (tb_constraints t)) /\ con_columns k = [col_name x]).
    { intros x Hx. rewrite <- Q in Hx. apply filter_In in Hx. destruct Hx as (Hx & Ex). split; [exact Hx|]. destruct (M1 x Hx) as (_ & _ & _ & _ & _ & G & _). apply G in Ex.
      destruct Ex as (k & Hk & Pk & Ek). exists k. split; [|exact Ek]. apply filter_In. split; [exact Hk|]. unfold single_primary. rewrite Ek, Pk. reflexivity. }
    assert (X : List.length (q :: l) <= 1).
    { apply few.
      - intros x y Hx Hy. destruct (P x Hx) as (Ix & k & Hk & Ek). destruct (P y Hy) as (Iy & k' & Hk' & Ek').
        assert (K : k = k').
        { destruct (filter (fun c => beqb (con_type c) PRIMARY_KEY && single_primary c) (tb_constraints t)) as [|z [|z' r]] eqn:Z.
          - destruct Hk.
          - destruct Hk as [<-|[]]. destruct Hk' as [<-|[]]. reflexivity.
          - cbn [List.length] in F. lia. }
        subst k'. rewrite Ek in Ek'. injection Ek' as E. eapply NoDup_map_inj_on; [apply T|exact Ix|exact Iy|exact E].
      - rewrite <- Q. apply NoDup_filter. apply (NoDup_map_inv col_name). apply T. }
    cbn [List.length] in *. destruct (P q (or_introl eq_refl)) as (_ & k & Hk & _).
    destruct (filter (fun c => beqb (con_type c) PRIMARY_KEY && single_primary c) (tb_constraints t)); [destruct Hk|]. cbn [List.length]. lia. }
  assert (E : List.length (filter (fun a : column => beqb (lk_kind (LKey PRIMARY_KEY [col_name a] [] [] true)) PRIMARY_KEY) (filter col_pkey (tb_columns t))) <= List.length (filter col_pkey (tb_columns t))).
  { cbn [lk_kind]. rewrite filter_filter. clear. induction (tb_columns t) as [|c l IH]; [cbn; lia|]. cbn [filter]. destruct (col_pkey c); cbn [andb]; [destruct (beqb PRIMARY_KEY PRIMARY_KEY)|]; cbn [List.length]; lia. }
  eapply Nat.le_trans; [apply Nat.add_le_mono; [exact E|exact L]|]. lia.
Qed.

Section Blocks.
Context (a b : list table).
Hypothesis (SEP : lite_separate a b) (FREE : lite_free a b) (Ub : NoDup (map tb_name b)).
Let ref := references b.
Notation of_any := (of_either a b).
Notation within := (bounded a b).

Definition named_rightly (t : table) (lt : ltable) : Prop :=
  forall n i, lt_indexes lt n = Some i -> ix_name i = n /\ ix_table i = tb_name t /\ ix_ignore i = false.
(** What a block of statements does. *)
Definition settles (t : table) (l : list stmt) (x : ldatabase) : Prop :=
  let y := lite_after ref l x in
  lite_runs ref l x /\ within y /\ (forall m, m <> tb_name t -> y m = x m)
  /\ exists lt, y (tb_name t) = Some lt /\ lite_agrees_table lt t /\ named_rightly t lt.

Lemma made_allowed : forall u t x q, tidy t -> makeable t -> resembles u t -> unused x (snd q) -> lite_allowed x (QCreateTable q u).
Proof.
  intros u t x q T M R U. cbn [lite_allowed]. split; [exact U|]. split; [apply R|]. rewrite (created_all u t T M R).
  pose proof M as (M0 & M1 & M2 & _). split; [exact M1|]. split; [apply T|]. split; [exact (one_primary u t T M R)|]. split.
  - intros c Hc E. destruct (M2 c Hc) as (_ & A1 & _ & _ & A2 & _). destruct (A2 E) as (A3 & A4). split; [exact A3|]. rewrite A1. exact A4.
  - intros k Hk. destruct (made_keys_sound u t k T M R Hk) as (c & Hc & (_ & K & _)). rewrite K, key_columns. destruct T as (_ & _ & _ & _ & _ & _ & T & _).
    destruct (T c Hc) as (_ & _ & _ & N & I). split; assumption.
Qed.
Lemma made_fits : forall u t m, of_any t -> tidy t -> makeable t -> resembles u t -> (exists v, of_any v /\ tb_name v = m) -> fits_in a b m (made_table u).
Proof.
  intros u t m K T M R N. split; [exact N|]. split; [intros n i Z; discriminate|].
  intros k Hk F. destruct (made_keys_sound u t k T M R Hk) as (c & Hc & (K1 & _ & K3 & _)). exists t, c. split; [exact K|]. split; [exact Hc|].
  assert (Fc : foreign c) by (unfold foreign; rewrite <- F, K1, key_kind; reflexivity). split; [exact Fc|]. rewrite K3, key_table; [reflexivity|exact Fc].
Qed.

(** After CREATE TABLE the indexes are created. *)
Lemma made_settles : forall t u x, of_any t -> tidy t -> makeable t -> resembles u t -> within x -> x (tb_name t) = Some (made_table u) -> settles t (index_stmts (tb_indexes t)) x.
Proof.
  intros t u x K T M R H E. pose proof M as (_ & _ & M1 & _ & _ & M2). pose proof T as (_ & _ & _ & Tc & Ti & _ & _ & T7).
  destruct (create_indexes ref a b SEP t K (tb_indexes t) x (made_table u) H E Ti) as (A1 & A2 & A3 & lt & L1 & L2 & L3 & L4).
  { intros i Hi. split; [exact Hi|]. split; [apply T7; exact Hi|]. split; [|reflexivity]. destruct (M2 i Hi) as (B1 & B2 & B3). split; [exact B1|]. split; [exact B2|].
    intros n Hn. destruct (B3 n Hn) as [Z|Z]; [left|right; exact Z]. cbn [made_table lt_columns]. rewrite (created_all u t T M R).
    apply called_is in Z. destruct Z as (c & Z). rewrite Z. discriminate. }
  unfold settles. split; [exact A1|]. split; [exact A2|]. split; [exact A3|]. exists lt. split; [exact L1|]. split.
  - unfold lite_agrees_table. rewrite L2, L3. cbn [made_table lt_columns lt_keys]. rewrite (created_all u t T M R). split; [|split; [|split; [|split; [|split]]]].
    + intro n. destruct (called col_name (tb_columns t) n); split; intro Z; reflexivity || discriminate.
    + intros n p q Hp Hq. rewrite Hq in Hp. injection Hp as <-. apply called_some in Hq. destruct Hq as (Hq & _).
      destruct (M1 q Hq) as (B1 & B2 & _). unfold lite_alike, lite_column. cbn [lc_type lc_notnull lc_default]. rewrite B1. split; [|split; reflexivity]. destruct (col_enum q); [reflexivity|exact B2].
    + intros k Hk. exact (made_keys_sound u t k T M R Hk).
    + intros c Hc. exact (made_keys_complete u t c T M R Hc).
    + intro n. rewrite L4. cbn [made_table lt_indexes]. destruct (called ix_name (tb_indexes t) n); split; intro Z; reflexivity || discriminate.
    + intros n i j Hi Hj. rewrite L4, Hj in Hi. injection Hi as <-. reflexivity.
  - intros n i Hi. rewrite L4 in Hi. cbn [made_table lt_indexes] in Hi. destruct (called ix_name (tb_indexes t) n) as [j|] eqn:J; [|discriminate]. injection Hi as <-.
    apply called_some in J. destruct J as (Hj & <-). split; [reflexivity|]. split; apply T7; exact Hj.
Qed.

(** ** A new table *)
Lemma new_settles : forall t u x, In t b -> tidy t -> makeable t -> resembles u t -> tb_name u = tb_name t -> tb_indexes u = tb_indexes t ->
  within x -> x (tb_name t) = None -> settles t (QCreateTable (bare (tb_name u)) u :: index_stmts (tb_indexes u)) x.
Proof.
  intros t u x Ht T M R EN EI H E. assert (K : of_any t) by (right; exact Ht). rewrite EN, EI.
  set (y := set_at x (tb_name t) (Some (made_table u))).
  assert (Y : within y) by (apply bounded_set; [exact H|]; eapply made_fits; eauto).
  destruct (made_settles t u y K T M R Y (set_at_same _ _ _)) as (A1 & A2 & A3 & A4).
  unfold settles. rewrite lite_after_cons. cbn [lite_runs lite_effect bare snd]. fold y. split; [split; [|exact A1]|].
  - apply (made_allowed u t x (bare (tb_name t)) T M R). cbn [bare snd]. apply (unused_table a b SEP); assumption.
  - split; [exact A2|]. split; [|exact A4]. intros m Hm. rewrite (A3 m Hm). apply set_at_other. exact Hm.
Qed.

(** ** A table that is copied *)
Lemma copy_settles : forall s t x lt, In s a -> In t b -> tb_name s = tb_name t -> tidy s -> tidy t -> makeable t -> lite_shared s t ->
  within x -> x (tb_name t) = Some lt -> lite_shows s lt -> settles t (copy_stmts (named_table s) (named_table t)) x.
Proof.
  intros s t x lt Hs Ht SAME Ts T M (n0 & N1 & N2) H E (S1 & _). assert (K : of_any t) by (right; exact Ht). pose proof M as (M0 & _ & M1 & _).
  unfold copy_stmts. rewrite (named_is s) by apply Ts. rewrite (named_is t) by apply T. cbn [with_constraints tb_name tb_schema tb_sql tb_virtual tb_columns tb_constraints tb_indexes tb_ignore].
  change (map (fun x0 : index => QCreateIndex (bare (ix_table x0)) x0 false) (tb_indexes t)) with (index_stmts (tb_indexes t)). fold (interim t).
  set (u := Table (tb_schema t) (interim t) (tb_sql t) (tb_virtual t) (tb_columns t) (map named_constraint (tb_constraints t)) (tb_indexes t) (tb_ignore t)).
  assert (R : resembles u t) by (split; [reflexivity|split; [exists named_constraint; split; [apply named_renames|reflexivity]|exact M0]]).
  assert (FC : filter (fun c : column => negb (col_generated c || negb (is_empty (col_expr c)))) (tb_columns t) = tb_columns t).
  { apply filter_all. intros c Hc. destruct (M1 c Hc) as (_ & _ & G1 & G2 & _). rewrite G1, G2. reflexivity. }
  rewrite FC. clear FC. set (cols := filter (fun n => bmem n (map col_name (tb_columns t))) (map col_name (tb_columns s))).
  assert (NI : interim t <> tb_name t).
  { unfold interim. intro Z. apply (f_equal (@List.length _)) in Z. rewrite app_length in Z. cbn in Z. lia. }
  pose proof (unused_interim a b FREE x t H Ht) as UI. destruct (FREE t Ht) as (FR & FK).
  set (x1 := set_at x (interim t) (Some (made_table u))). set (x2 := set_at x1 (tb_name t) None). set (x3 := set_at (set_at x2 (interim t) None) (tb_name t) (x2 (interim t))).
  assert (E3 : x2 (interim t) = Some (made_table u)) by (unfold x2, x1; rewrite set_at_other by exact NI; apply set_at_same).
  assert (X3 : x3 (tb_name t) = Some (made_table u)) by (unfold x3; rewrite set_at_same; exact E3).
  assert (O3 : forall m, m <> tb_name t -> x3 m = x m).
  { intros m Hm. unfold x3. rewrite set_at_other by exact Hm. unfold set_at at 1. destruct (beqb_spec m (interim t)) as [->|Hi]; [symmetry; apply UI|].
    unfold x2, x1. rewrite !set_at_other by assumption. reflexivity. }
  assert (Y : within x3).
  { intros m l Em. destruct (beqb_spec m (tb_name t)) as [->|Hm].
    - rewrite X3 in Em. injection Em as <-. eapply made_fits; eauto.
    - rewrite (O3 m Hm) in Em. exact (H m l Em). }
  destruct (made_settles t u x3 K T M R Y X3) as (A1 & A2 & A3 & A4).
  unfold settles. cbn [app]. rewrite !lite_after_cons. cbn [lite_runs lite_effect bare snd]. fold x1. fold x2. fold x3.
  split; [|split; [exact A2|split; [|exact A4]]].
  2: { intros m Hm. rewrite (A3 m Hm). exact (O3 m Hm). }
  split; [|split; [|split; [|split]]].
  - apply (made_allowed u t x (bare (interim t)) T M R). exact UI.
  - cbn [lite_allowed bare snd].
    assert (IC : forall n, In n cols <-> In n (map col_name (tb_columns s)) /\ In n (map col_name (tb_columns t))) by (intro n; unfold cols; rewrite filter_In, bmem_In; reflexivity).
    split; [intro Z; assert (Q : In n0 cols) by (apply IC; auto); rewrite Z in Q; destruct Q|]. split; [apply NoDup_filter; apply Ts|]. split.
    + exists lt. split; [unfold x1; rewrite set_at_other by (intro Z; apply NI; symmetry; exact Z); exact E|]. intros n Hn. apply IC in Hn. destruct Hn as (Hn & _). apply called_is in Hn. destruct Hn as (c & Hn).
      rewrite S1, Hn. discriminate.
    + exists (made_table u). split; [unfold x1; apply set_at_same|]. intros n Hn. apply IC in Hn. destruct Hn as (_ & Hn). apply called_is in Hn. destruct Hn as (c & Hn).
      cbn [made_table lt_columns]. rewrite (created_all u t T M R), Hn. discriminate.
  - cbn [lite_allowed bare snd]. unfold x1. rewrite set_at_other by (intro Z; apply NI; symmetry; exact Z). rewrite E. discriminate.
  - cbn [lite_allowed bare snd]. split; [rewrite E3; discriminate|]. split.
    + split; [apply set_at_same|]. intros m l Em.
      destruct (beqb_spec m (tb_name t)) as [->|Hm]; [unfold x2 in Em; rewrite set_at_same in Em; discriminate|].
      destruct (beqb_spec m (interim t)) as [->|Hi]; [rewrite E3 in Em; injection Em as <-; reflexivity|].
      unfold x2, x1 in Em. rewrite !set_at_other in Em by assumption.
      destruct (lt_indexes l (tb_name t)) as [i|] eqn:Ei; [|reflexivity]. exfalso.
      destruct (H m l Em) as (_ & F & _). destruct (F _ _ Ei) as (v & Kv & Ev & Iv).
      pose proof (SEP _ _ _ (owned_table a b t _ K eq_refl) (owned_index a b v _ Kv Iv)). discriminate.
    + intros m l k Em Hk Fk Z.
      assert (W : exists v c, of_any v /\ In c (tb_constraints v) /\ foreign c /\ con_reftable c = lk_table k).
      { destruct (beqb_spec m (tb_name t)) as [->|Hm]; [unfold x2 in Em; rewrite set_at_same in Em; discriminate|].
        destruct (beqb_spec m (interim t)) as [->|Hi].
        - rewrite E3 in Em. injection Em as <-. destruct (made_fits u t (tb_name t) K T M R) as (_ & _ & G); [eauto|]. exact (G k Hk Fk).
        - unfold x2, x1 in Em. rewrite !set_at_other in Em by assumption. destruct (H m l Em) as (_ & _ & G). exact (G k Hk Fk). }
      destruct W as (v & c & Kv & Hc & Fc & Ec). apply (FK v c Kv Hc Fc). rewrite Ec. exact Z.
  - exact A1.
Qed.

(** ** A table that is altered in place *)
Lemma references_sound : forall t n k, In t b -> ref (tb_name t) n = Some k ->
  exists c, In c (tb_constraints t) /\ foreign c /\ con_columns c = [n] /\ k = key_of true c.
Proof.
  intros t n k Ht H. unfold ref, references in H. rewrite (called_in tb_name b t Ub Ht) in H.
  destruct (find _ (tb_constraints t)) as [c|] eqn:F; [|discriminate]. injection H as <-. apply find_some in F. destruct F as (Hc & F).
  rewrite !andb_true_iff in F. destruct F as ((F1 & F2) & F3). exists c. split; [exact Hc|]. split; [apply beqb_eq; exact F1|]. split; [|reflexivity].
  destruct (con_columns c) as [|m [|m' r]]; try discriminate. apply bmem_In in F3. destruct F3 as [->|[]]. reflexivity.
Qed.
Lemma references_complete : forall t n c, In t b -> In c (tb_constraints t) -> foreign c -> con_columns c = [n] -> exists k, ref (tb_name t) n = Some k.
Proof.
  intros t n c Ht Hc F E. unfold ref, references. rewrite (called_in tb_name b t Ub Ht). destruct (find _ (tb_constraints t)) as [d|] eqn:D; [eexists; reflexivity|].
  exfalso. pose proof (find_none _ _ D c Hc) as Z. cbn beta in Z. rewrite E in Z. unfold foreign in F. rewrite F in Z. cbn in Z. rewrite beqb_refl in Z. discriminate.
Qed.

Lemma place_settles : forall s t x lt, In s a -> In t b -> tb_name s = tb_name t -> tidy s -> tidy t -> makeable t ->
  lite_faithful s t -> lite_shared s t -> lite_added s t -> lite_inline s t lt ->
  within x -> x (tb_name t) = Some lt -> lite_shows s lt ->
  let w := whole_alter (named_table s) (named_table t) in
  sa_alter_columns w = [] ->
  (forall c, In c (sa_drop_constraints w) -> kept_alone (sa_is_dropped w) c) ->
  (forall c, In c (sa_add_constraints w) -> kept_alone (sa_is_added w) c) ->
  settles t (alter_stmts_sqlite w false) x.
Proof.
  intros s t x lt Hs Ht SAME Ts T M (F1 & F2) (n0 & N1 & N2) ADD INL H E (S1 & S2 & S3 & S4) w W1 W2 W3.
  assert (K : of_any t) by (right; exact Ht). pose proof M as (M0 & _ & M1 & _ & M3 & M4).
  pose proof T as (_ & _ & _ & Tc & Ti & _ & Tk & T7). pose proof Ts as (_ & _ & _ & Tsc & Tsi & _ & Tsk & Ts7).
  cbn [w whole_alter sa_alter_columns sa_drop_constraints sa_add_constraints sa_is_dropped sa_is_added] in W1, W2, W3.
  unfold alter_stmts_sqlite. cbn [w whole_alter sa_dest sa_drop_indexes sa_drop_columns sa_add_columns sa_create_indexes]. rewrite named_table_name. clear w.
  set (di := only_ixs (named_table s) (named_table t)) in *. set (dc := only_cols (named_table s) (named_table t)) in *.
  set (ac := only_cols (named_table t) (named_table s)) in *. set (ci := only_ixs (named_table t) (named_table s)) in *.
  change (map (fun x0 : index => QCreateIndex (bare (ix_table x0)) x0 false) ci) with (index_stmts ci).
  replace (map (fun x0 : index => QDropIndex (bare (tb_name t)) (ix_name x0)) di) with (map (fun n => QDropIndex (bare (tb_name t)) n) (map ix_name di)) by apply map_map.
  replace (map (fun c : column => QDropColumn (bare (tb_name t)) (col_name c)) dc) with (map (fun n => QDropColumn (bare (tb_name t)) n) (map col_name dc)) by apply map_map.
  assert (Di : forall n, In n (map ix_name di) <-> In n (map ix_name (tb_indexes s)) /\ ~ In n (map ix_name (tb_indexes t))).
  { intro n. split.
    - intro Z. apply in_map_iff in Z. destruct Z as (i & <- & Hi). apply only_ixs_in in Hi; [|assumption|assumption]. split; [apply in_map|]; apply Hi.
    - intros (Z & Z'). apply in_map_iff in Z. destruct Z as (i & <- & Hi). apply in_map. apply only_ixs_in; auto. }
  assert (Dc : forall n, In n (map col_name dc) <-> In n (map col_name (tb_columns s)) /\ ~ In n (map col_name (tb_columns t))).
  { intro n. split.
    - intro Z. apply in_map_iff in Z. destruct Z as (i & <- & Hi). apply only_cols_in in Hi; [|assumption|assumption]. split; [apply in_map|]; apply Hi.
    - intros (Z & Z'). apply in_map_iff in Z. destruct Z as (i & <- & Hi). apply in_map. apply only_cols_in; auto. }
  assert (COL : forall n, lt_columns lt n <> None <-> In n (map col_name (tb_columns s))).
  { intro n. rewrite S1. rewrite <- (called_is col_name (tb_columns s) n). destruct (called col_name (tb_columns s) n) as [c|]; cbn; split; intro Z; try discriminate; try contradiction; eauto. destruct Z; discriminate. }
  assert (IXS : forall n, lt_indexes lt n <> None <-> In n (map ix_name (tb_indexes s))).
  { intro n. rewrite S4. rewrite <- (called_is ix_name (tb_indexes s) n). destruct (called ix_name (tb_indexes s) n) as [c|]; cbn; split; intro Z; try discriminate; try contradiction; eauto. destruct Z; discriminate. }
  (* constraints of both *)
  assert (ONLY : forall c, In c (tb_constraints s) -> (exists d, In d (tb_constraints t) /\ same_key (key_of false c) (key_of false d)) \/ kept_alone (map col_name dc) c).
  { intros c Hc. destruct (find_con (named_table t) (compared_name c)) as [d|] eqn:Fd.
    - left. unfold find_con, pick_con in Fd. destruct (some_name (compared_name c)); [|discriminate]. apply pick_some in Fd. destruct Fd as (Hd & Ed & _).
      rewrite (named_is t) in Hd by apply T. cbn [with_constraints tb_constraints] in Hd. apply in_map_iff in Hd. destruct Hd as (d0 & <- & Hd). rewrite compared_name_ok in Ed.
      exists d0. split; [exact Hd|]. apply F1; [exact Hc|exact Hd|symmetry; exact Ed].
    - right. assert (Z : kept_alone (map col_name dc) (named_constraint c)).
      { apply W2. apply only_cons_in; [exact Ts|exact T|]. exists c. split; [reflexivity|]. split; [exact Hc|]. refine (proj1 (find_con_none t c T _) Fd). apply Tsk. exact Hc. }
      unfold kept_alone, foreign in *. rewrite named_type, named_columns in Z. exact Z. }
  assert (ONLY' : forall c, In c (tb_constraints t) -> (exists d, In d (tb_constraints s) /\ same_key (key_of false d) (key_of false c)) \/ kept_alone (map col_name ac) c).
  { intros c Hc. destruct (find_con (named_table s) (compared_name c)) as [d|] eqn:Fd.
    - left. unfold find_con, pick_con in Fd. destruct (some_name (compared_name c)); [|discriminate]. apply pick_some in Fd. destruct Fd as (Hd & Ed & _).
      rewrite (named_is s) in Hd by apply Ts. cbn [with_constraints tb_constraints] in Hd. apply in_map_iff in Hd. destruct Hd as (d0 & <- & Hd). rewrite compared_name_ok in Ed.
      exists d0. split; [exact Hd|]. apply F1; assumption.
    - right. assert (Z : kept_alone (map col_name ac) (named_constraint c)).
      { apply W3. apply only_cons_in; [exact T|exact Ts|]. exists c. split; [reflexivity|]. split; [exact Hc|]. refine (proj1 (find_con_none s c Ts _) Fd). apply Tk. exact Hc. }
      unfold kept_alone, foreign in *. rewrite named_type, named_columns in Z. exact Z. }
  (* DROP INDEX *)
  destruct (drop_indexes ref a b SEP t K (map ix_name di) x lt H E) as (A1 & A2 & A3 & lt1 & L1 & L2 & L3 & L4).
  { unfold di, only_ixs, gone. rewrite (named_is s) by apply Ts. apply NoDup_filter_map. exact Tsi. }
  { intros n Hn. apply IXS. apply Di. exact Hn. }
  set (x1 := lite_after ref (map (fun n => QDropIndex (bare (tb_name t)) n) (map ix_name di)) x) in *.
  (* DROP COLUMN *)
  destruct (drop_columns ref a b t K (map col_name dc) x1 lt1 A2 L1) as (B1 & B2 & B3 & lt2 & P1 & P2 & P3 & P4).
  { unfold dc, only_cols, gone. rewrite (named_is s) by apply Ts. apply NoDup_filter_map. exact Tsc. }
  { intros n Hn. rewrite L2. apply COL. apply Dc. exact Hn. }
  { exists n0. split; [intro Z; apply Dc in Z; apply Z; exact N2|]. rewrite L2. apply COL. exact N1. }
  { intros n k Hn Hk Hc. rewrite L3 in Hk. apply Dc in Hn. destruct Hn as (Hn1 & Hn2). destruct (S2 k Hk) as (c & Ic & Kc). destruct Kc as (Kc1 & Kc2 & _). rewrite key_kind in Kc1. rewrite key_columns in Kc2.
    destruct (ONLY c Ic) as [(d & Hd & (_ & Z & _))|(Z1 & m & Z2 & Z3)].
    - exfalso. apply Hn2. rewrite !key_columns in Z. destruct (Tk d Hd) as (_ & _ & _ & _ & G). apply G. rewrite <- Z, <- Kc2. exact Hc.
    - assert (Em : m = n) by (rewrite Kc2, Z2 in Hc; destruct Hc as [Hc|[]]; exact Hc). subst m.
      assert (Fk : lk_kind k = FOREIGN_KEY) by (rewrite Kc1; exact Z1). split; [exact Fk|]. apply (INL k n Hk Fk); [rewrite Kc2; exact Z2|exact Hn2]. }
  { intros n m i Hn Hi Z. apply Dc in Hn. destruct Hn as (Hn1 & Hn2). rewrite L4 in Hi. destruct (bmem m (map ix_name di)) eqn:Bm; [discriminate|].
    rewrite S4 in Hi. apply called_some in Hi. destruct Hi as (Hi & <-).
    assert (It : In (ix_name i) (map ix_name (tb_indexes t))).
    { destruct (in_dec (list_eq_dec ascii_dec) (ix_name i) (map ix_name (tb_indexes t))) as [Y|Y]; [exact Y|]. exfalso.
      assert (Q : In (ix_name i) (map ix_name di)) by (apply Di; split; [apply in_map; exact Hi|exact Y]). apply bmem_In in Q. congruence. }
    apply in_map_iff in It. destruct It as (j & Ej & Hj). rewrite (F2 i j Hi Hj (eq_sym Ej)) in Z. destruct (M4 j Hj) as (_ & _ & G). destruct (G n Z) as [G'|G']; [contradiction|exact G']. }
  set (x2 := lite_after ref (map (fun n => QDropColumn (bare (tb_name t)) n) (map col_name dc)) x1) in *.
  assert (AC : forall c, In c ac <-> In c (tb_columns t) /\ ~ In (col_name c) (map col_name (tb_columns s))) by (intro c; apply only_cols_in; assumption).
  assert (CI : forall i, In i ci <-> In i (tb_indexes t) /\ ~ In (ix_name i) (map ix_name (tb_indexes s))) by (intro i; apply only_ixs_in; assumption).
  assert (C2 : forall n, lt_columns lt2 n = if bmem n (map col_name dc) then None else lt_columns lt n) by (intro n; rewrite P4, L2; reflexivity).
  assert (I2 : forall n, lt_indexes lt2 n = if bmem n (map ix_name di) then None else lt_indexes lt n) by (intro n; rewrite P2, L4; reflexivity).
  assert (NEW : forall c k, In c ac -> In k (tb_constraints t) -> con_columns k = [col_name c] -> foreign k).
  { intros c k Hc Hk Ek. apply AC in Hc. destruct Hc as (Hc & Nc). destruct (ONLY' k Hk) as [(d & Hd & (_ & Z & _))|Z]; [|apply Z].
    exfalso. apply Nc. rewrite !key_columns in Z. destruct (Tsk d Hd) as (_ & _ & _ & _ & G). apply G. rewrite Z, Ek. left. reflexivity. }
  (* ADD COLUMN *)
  destruct (add_columns ref a b t K ac x2 lt2 B2 P1) as (C1 & C3 & C4 & lt3 & Q1 & Q2 & Q3 & Q4).
  { unfold ac, only_cols, gone. rewrite (named_is t) by apply T. apply NoDup_filter_map. exact Tc. }
  { intros c Hc. pose proof Hc as Hc'. apply AC in Hc. destruct Hc as (Hc & Nc). split.
    - rewrite C2. destruct (bmem _ _); [reflexivity|]. destruct (lt_columns lt (col_name c)) eqn:Z; [|reflexivity]. exfalso. apply Nc. apply COL. rewrite Z. discriminate.
    - destruct (M1 c Hc) as (_ & _ & G1 & G2 & G3 & G4 & G5). destruct (ADD c Hc Nc) as (G6 & G7).
      assert (PK : col_pkey c = false).
      { destruct (col_pkey c) eqn:Z; [|reflexivity]. destruct (proj1 G4 eq_refl) as (k & Hk & Pk & Ek). pose proof (NEW c k Hc' Hk Ek) as Fk. unfold primary, foreign in *. rewrite Pk in Fk. discriminate. }
      split; [exact PK|]. split; [destruct (col_autoincrement c); [destruct (G3 eq_refl); congruence|reflexivity]|]. split; [|auto].
      destruct (col_unique c) eqn:Z; [|reflexivity]. destruct (G5 eq_refl) as (k & Hk & Pk & Ek). pose proof (NEW c k Hc' Hk Ek) as Fk. unfold foreign in Fk. rewrite Pk in Fk. discriminate. }
  { intros c k Hc Er. destruct (references_sound t _ k Ht Er) as (d & Hd & Fd & _ & ->). exists t, d. split; [exact K|]. split; [exact Hd|]. split; [exact Fd|]. rewrite key_table; [reflexivity|exact Fd]. }
  set (x3 := lite_after ref (map (QAddColumn (bare (tb_name t))) ac) x2) in *.
  assert (I3 : forall n, lt_indexes lt3 n = if bmem n (map ix_name di) then None else lt_indexes lt n) by (intro n; rewrite Q2, I2; reflexivity).
  assert (C5 : forall n, lt_columns lt3 n = None <-> called col_name (tb_columns t) n = None).
  { intro n. rewrite Q4. destruct (called col_name ac n) as [c|] eqn:Ec.
    - apply called_some in Ec. destruct Ec as (Hc & <-). apply AC in Hc. split; [discriminate|]. intro Z. exfalso. exact (proj1 (called_none _ _ _) Z c (proj1 Hc) eq_refl).
    - rewrite C2. destruct (bmem n (map col_name dc)) eqn:Bn.
      + apply bmem_In in Bn. apply Dc in Bn. split; [intros _|reflexivity]. apply called_none. intros c Hc <-. apply (proj2 Bn). apply in_map. exact Hc.
      + split; intro Z.
        * apply called_none. intros c Hc <-. apply (proj1 (called_none _ _ _) Ec c); [|reflexivity]. apply AC. split; [exact Hc|]. intro Y. apply COL in Y. contradiction.
        * destruct (lt_columns lt n) eqn:Y; [|reflexivity]. exfalso. assert (Y' : lt_columns lt n <> None) by congruence. apply COL in Y'.
          assert (D : In n (map col_name dc)). { apply Dc. split; [exact Y'|]. intro D. apply called_is in D. destruct D. congruence. }
          apply bmem_In in D. congruence. }
  (* CREATE INDEX *)
  destruct (create_indexes ref a b SEP t K ci x3 lt3 C3 Q1) as (E1 & E2 & E3 & lt4 & R1 & R2 & R3 & R4).
  { unfold ci, only_ixs, gone. rewrite (named_is t) by apply T. apply NoDup_filter_map. exact Ti. }
  { intros i Hi. apply CI in Hi. destruct Hi as (Hi & Ni). destruct (M4 i Hi) as (G1 & G2 & G3). split; [exact Hi|]. split; [apply T7; exact Hi|]. split.
    - split; [exact G1|]. split; [exact G2|]. intros n Hn. destruct (G3 n Hn) as [Z|Z]; [left|right; exact Z]. intro Y. apply C5 in Y. apply called_is in Z. destruct Z. congruence.
    - rewrite I3. destruct (bmem _ _); [reflexivity|]. destruct (lt_indexes lt (ix_name i)) eqn:Z; [|reflexivity]. exfalso. apply Ni. apply IXS. rewrite Z. discriminate. }
  set (x4 := lite_after ref (index_stmts ci) x3) in *.
  unfold settles. rewrite !lite_runs_app, !lite_after_app. fold x1. fold x2. fold x3. fold x4.
  split; [exact (conj A1 (conj B1 (conj C1 E1)))|]. split; [exact E2|]. split; [intros m Hm; rewrite (E3 m Hm), (C4 m Hm), (B3 m Hm), (A3 m Hm); reflexivity|].
  exists lt4. split; [exact R1|].
  assert (IX : forall n i, lt_indexes lt4 n = Some i -> (In i (tb_indexes t) \/ In i (tb_indexes s)) /\ ix_name i = n).
  { intros n i Hi. rewrite R4 in Hi. destruct (called ix_name ci n) as [j|] eqn:J.
    - injection Hi as <-. apply called_some in J. destruct J as (J & <-). apply CI in J. split; [left; apply J|reflexivity].
    - rewrite I3 in Hi. destruct (bmem n (map ix_name di)); [discriminate|]. rewrite S4 in Hi. apply called_some in Hi. destruct Hi as (Hi & <-). auto. }
  split.
  - unfold lite_agrees_table. rewrite R2, R3. split; [exact C5|]. split; [|split; [|split; [|split]]].
    + intros n p q Hp Hq. rewrite Q4 in Hp. destruct (called col_name ac n) as [c|] eqn:Ec.
      * injection Hp as <-. apply called_some in Ec. destruct Ec as (Hc & En). apply AC in Hc. destruct Hc as (Hc & _). rewrite <- En, (called_in col_name _ _ Tc Hc) in Hq. injection Hq as <-.
        destruct (M1 c Hc) as (G1 & G2 & _). unfold lite_alike, lite_column. cbn [lc_type lc_notnull lc_default]. rewrite G1. split; [|split; reflexivity]. destruct (col_enum c); [reflexivity|exact G2].
      * rewrite C2 in Hp. destruct (bmem n (map col_name dc)); [discriminate|]. rewrite S1 in Hp. destruct (called col_name (tb_columns s) n) as [p0|] eqn:P0; [|discriminate]. injection Hp as <-.
        apply called_some in P0. apply called_some in Hq. destruct P0 as (P0 & Z0), Hq as (Hq & Zq). apply differ_alike. destruct (differ_sqlite p0 q) eqn:D; [|reflexivity]. exfalso.
        assert (Z : In (p0, q) (altered_sqlite (named_table s) (named_table t))).
        { apply altered_in; [exact Ts|exact T|]. split; [exact P0|]. split; [exact Hq|]. split; [congruence|]. rewrite <- differ_alike, D. discriminate. }
        rewrite W1 in Z. destruct Z.
    + intros k Hk. rewrite Q3 in Hk. apply in_app_or in Hk. destruct Hk as [Hk|Hk].
      * rewrite P3 in Hk. apply filter_In in Hk. destruct Hk as (Hk & O). rewrite L3 in Hk. destruct (S2 k Hk) as (c & Hc & Kc). destruct (ONLY c Hc) as [(d & Hd & Kd)|(Z1 & m & Z2 & Z3)].
        -- exists d. split; [exact Hd|]. eapply same_key_trans; eassumption.
        -- exfalso. destruct Kc as (K1 & K2 & _). rewrite key_kind in K1. rewrite key_columns in K2. unfold outlives in O.
           rewrite (INL k m Hk) in O; [|rewrite K1; exact Z1|rewrite K2; exact Z2|apply Dc; exact Z3]. cbn [andb] in O. apply negb_true_iff in O.
           assert (Y : existsb (fun n => bmem n (lk_columns k)) (map col_name dc) = true).
           { apply existsb_exists. exists m. split; [exact Z3|]. rewrite K2, Z2. apply bmem_In. left. reflexivity. }
           congruence.
      * unfold new_refs in Hk. apply in_flat_map in Hk. destruct Hk as (c & Hc & Hk). destruct (ref (tb_name t) (col_name c)) as [k'|] eqn:Er; [|destruct Hk]. destruct Hk as [->|[]].
        destruct (references_sound t _ k Ht Er) as (d & Hd & _ & _ & ->). exists d. split; [exact Hd|apply key_of_inline].
    + intros c Hc. rewrite Q3, P3, L3. destruct (ONLY' c Hc) as [(d & Hd & Kd)|(Z1 & m & Z2 & Z3)].
      * destruct (S3 d Hd) as (k & Hk & Kk). exists k. split; [|eapply same_key_trans; eassumption]. apply in_or_app. left. apply filter_In. split; [exact Hk|].
        unfold outlives. destruct (existsb _ _) eqn:Z; [|rewrite andb_false_r; reflexivity]. exfalso. apply existsb_exists in Z. destruct Z as (n & Hn & Bn). apply bmem_In in Bn. apply Dc in Hn.
        apply (proj2 Hn). destruct (Tk c Hc) as (_ & _ & _ & _ & G). apply G. destruct Kk as (_ & Kk & _), Kd as (_ & Kd & _). rewrite !key_columns in *. rewrite <- Kd, <- Kk. exact Bn.
      * destruct (references_complete t m c Ht Hc Z1 Z2) as (k & Er). destruct (references_sound t m k Ht Er) as (d & Hd & Fd & Ed & ->).
        exists (key_of true d). split.
        -- apply in_or_app. right. unfold new_refs. apply in_flat_map. apply in_map_iff in Z3. destruct Z3 as (q & Eq & Hq). exists q. split; [exact Hq|]. rewrite Eq, Er. left. reflexivity.
        -- eapply same_key_trans; [apply key_of_inline|]. apply M3; [exact Hd|exact Hc| |congruence]. unfold foreign in *. congruence.
    + intro n. rewrite R4. destruct (called ix_name ci n) as [j|] eqn:J.
      * apply called_some in J. destruct J as (J & <-). apply CI in J. split; [discriminate|]. intro Z. exfalso. exact (proj1 (called_none _ _ _) Z j (proj1 J) eq_refl).
      * rewrite I3. destruct (bmem n (map ix_name di)) eqn:Bn.
        -- apply bmem_In in Bn. apply Di in Bn. split; [intros _|reflexivity]. apply called_none. intros c Hc <-. apply (proj2 Bn). apply in_map. exact Hc.
        -- split; intro Z.
           ++ apply called_none. intros c Hc <-. apply (proj1 (called_none _ _ _) J c); [|reflexivity]. apply CI. split; [exact Hc|]. intro Y. apply IXS in Y. contradiction.
           ++ destruct (lt_indexes lt n) eqn:Y; [|reflexivity]. exfalso. assert (Y' : lt_indexes lt n <> None) by congruence. apply IXS in Y'.
              assert (D : In n (map ix_name di)). { apply Di. split; [exact Y'|]. intro D. apply called_is in D. destruct D. congruence. }
              apply bmem_In in D. congruence.
    + intros n i j Hi Hj. destruct (IX n i Hi) as ([Y|Y] & En); apply called_some in Hj; destruct Hj as (Hj & Ej).
      * assert (i = j) by (eapply NoDup_map_inj_on; [exact Ti|exact Y|exact Hj|congruence]). subst j. reflexivity.
      * apply F2; [exact Y|exact Hj|congruence].
  - intros n i Hi. destruct (IX n i Hi) as ([Y|Y] & En); (split; [exact En|]).
    + split; apply T7; exact Y.
    + rewrite <- SAME. split; apply Ts7; exact Y.
Qed.
End Blocks.
