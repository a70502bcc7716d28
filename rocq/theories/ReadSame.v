(** Proofs about reading table structs back: the table that is read is the one that was written. *)
From Coq Require Import Lia Permutation.
From Verif Require Import GoStr GoStrFacts ModelCatalog ModelCache SpecCache CacheFacts CopyFacts ModelDdl DdlFacts
  ModelModifier SpecModifier ModifierFacts ModelDiff ModelDiffSql DiffLookup ModelGoTag ModelStructs SpecStructs ModelParser ParserFacts ParserTables
  SpecSame ReadKeys WriteKeys GoText ReadColumns ReadTable ReadChecks.

Local Arguments PRIMARY_KEY : simpl never.
Local Arguments FOREIGN_KEY : simpl never.
Local Arguments UNIQUE : simpl never.
Local Arguments generate_name : simpl never.
Local Arguments B : simpl never.

Lemma word_quiet : forall n, go_word n -> quiet n.
Proof.
  intros n (_ & H). repeat split; intro X; destruct (H _ X) as [Y|[Y|[Y|Y]]]; vm_compute in Y; discriminate.
Qed.
Lemma join_in : forall (l : list bytes) x, In x (join (B",") l) -> x = ","%char \/ exists a, In a l /\ In x a.
Proof.
  induction l as [|a l IH]; intros x H; [contradiction|]. destruct l as [|b l]; [right; exists a; split; [left; reflexivity|exact H]|].
  rewrite join_cons in H by discriminate. rewrite !in_app_iff in H. destruct H as [H|[[H|[]]|H]].
  - right. exists a. split; [left; reflexivity|exact H].
  - left. congruence.
  - destruct (IH x H) as [->|(c & Hc & Hx)]; [left; reflexivity|]. right. exists c. split; [right; exact Hc|exact Hx].
Qed.
Lemma words_listable : forall l, l <> [] -> Forall go_word l -> listable l.
Proof.
  intros l N F. split; [exact N|]. split; [eapply Forall_impl; [|exact F]; exact word_plain|]. rewrite Forall_forall in F.
  assert (Q : forall x, In x (listed l) -> x <> "{"%char /\ x <> "}"%char).
  { intros x Hx. destruct (join_in l x Hx) as [->|(a & Ha & Hxa)]; [split; discriminate|]. destruct (word_quiet a (F a Ha)) as (A & C & _).
    split; intros ->; contradiction. }
  split.
  - apply balanced_no_braces; intro X; apply Q in X; tauto.
  - right. intros s E. assert (X : In "{"%char (listed l)) by (rewrite E; left; reflexivity). apply Q in X. tauto.
Qed.
Lemma live_key_in : forall t c, In c (live_keys_of t) <-> a_live_key t c.
Proof.
  intros t c. unfold live_keys_of, a_live_key, key_type. rewrite filter_In, andb_true_iff, negb_true_iff, bmem_In. cbn [In]. intuition congruence.
Qed.
Lemma live_index_in : forall t x, In x (live_indexes_of t) <-> a_live_index t x.
Proof. intros t x. unfold live_indexes_of, a_live_index. rewrite filter_In, negb_true_iff. reflexivity. Qed.
Lemma live_column_in : forall t c, In c (filter shown (tb_columns t)) <-> a_live_column t c.
Proof. intros t c. unfold a_live_column, shown. rewrite filter_In, negb_true_iff. reflexivity. Qed.
Lemma nodup_same : forall {A} (f : A -> bytes) l i j a b, NoDup (map f l) -> nth_error l i = Some a -> nth_error l j = Some b -> f a = f b -> i = j.
Proof.
  intros A f l i j a b N Ha Hb E. apply (nodup_nth (map f l) i j (f a) N); [|rewrite E]; apply nth_map; assumption.
Qed.

Section Table.
Variables (flt : bytes -> bool) (cat : catalog).
Notation d := (ct_dialect cat).
Notation cur := (ct_current cat).
Hypothesis HE : expressible flt cat.
Variable t : table.
Hypothesis Ht : In t (tables_in (ct_schemas cat)).
Let F : table_fits flt cat t := proj1 HE t Ht.
Let ks := live_keys_of t.
Let xs := live_indexes_of t.

Lemma live_names_words : forall u, In u (tables_in (ct_schemas cat)) -> forall l, incl l (live_names u) -> Forall go_word l.
Proof.
  intros u Hu l H. apply Forall_forall. intros n Hn. apply H in Hn. unfold live_names in Hn. apply in_map_iff in Hn as (c & <- & Hc).
  apply (live_column_in u c) in Hc. apply (tf_columns _ _ _ (proj1 HE u Hu) c Hc).
Qed.
Lemma keys_sound : Forall (key_sound d cur) ks.
Proof.
  apply Forall_forall. intros k Hk. apply live_key_in in Hk. destruct (tf_keys _ _ _ F k Hk) as (K1 & K2 & K3 & K4 & K5).
  assert (W : Forall go_word (con_columns k)) by (exact (live_names_words t Ht _ K2)).
  assert (D : defers d k) by (split; [intro X; destruct (K3 X) as [-> | ->]; reflexivity|exact K4]).
  split; [apply words_listable; assumption|]. destruct (proj2 (proj2 Hk)) as [T|[T|T]]; [left; auto|left; auto|right].
  destruct (K5 T) as ((u & Hu & U1 & U2 & U3) & L1 & L2 & L3 & L4 & L5 & L6 & L7).
  assert (Wr : Forall go_word (con_refcolumns k)) by (exact (live_names_words u Hu _ U3)).
  pose proof (tf_name _ _ _ (proj1 HE u Hu)) as Wu. rewrite U2 in Wu.
  repeat split; try assumption; try apply L4; try apply L5; try apply L6; try apply D.
  - apply (word_plain _ Wu).
  - apply (word_plain _ Wu).
  - apply (word_plain _ Wu).
  - eapply Forall_impl; [|exact Wr]. exact word_plain.
  - eapply Forall_impl; [|exact W]. exact word_plain.
  - apply (word_quiet _ Wu).
  - apply (word_quiet _ Wu).
  - apply (word_quiet _ Wu).
  - eapply Forall_impl; [|exact Wr]. exact word_quiet.
Qed.
Lemma index_word : forall x, In x xs -> listable (ix_columns x).
Proof.
  intros x Hx. apply live_index_in in Hx. destruct (tf_indexes _ _ _ F x Hx) as (X1 & X2 & _). apply words_listable.
  - intro E. unfold is_simple_index in X1. rewrite E in X1. discriminate.
  - exact (live_names_words t Ht _ X2).
Qed.
Lemma indexes_whole : Forall (index_whole d) xs.
Proof.
  apply Forall_forall. intros x Hx. pose proof (index_word x Hx) as L. apply live_index_in in Hx. destruct (tf_indexes _ _ _ F x Hx) as (X1 & X2 & X3 & X4).
  split; [|exact L]. split; [split; assumption|]. split; apply L.
Qed.
Lemma simple_indexes : filter (fun x => negb (ix_ignore x) && is_simple_index x) (tb_indexes t) = xs.
Proof.
  unfold xs, live_indexes_of. apply filter_ext_in. intros x Hx. destruct (ix_ignore x) eqn:G; [reflexivity|]. cbn [negb andb].
  apply (tf_indexes _ _ _ F x). split; assumption.
Qed.
Lemma keys_typed : forall k, In k ks -> key_type (con_type k).
Proof. intros k Hk. apply live_key_in in Hk. apply Hk. Qed.
Lemma keys_once : forall i j a b, nth_error ks i = Some a -> nth_error ks j = Some b ->
  con_type a = con_type b -> con_type a = PRIMARY_KEY \/ listed (con_columns a) = listed (con_columns b) -> i = j.
Proof.
  intros i j a b Ha Hb E [P|L].
  - apply (nodup_same (key_name d t) ks i j a b (tf_key_names _ _ _ F) Ha Hb). f_equal.
    apply (tf_one_primary _ _ _ F); try apply live_key_in; try congruence; eapply nth_error_In; eassumption.
  - apply (nodup_same (key_name d t) ks i j a b (tf_key_names _ _ _ F) Ha Hb). unfold key_name. rewrite E.
    replace (con_columns b) with (con_columns a); [reflexivity|]. pose proof keys_sound as K. rewrite Forall_forall in K.
    apply listed_inj; [apply K; eapply nth_error_In; eassumption|apply K; eapply nth_error_In; eassumption|exact L].
Qed.
Lemma indexes_once : forall i j a b, nth_error xs i = Some a -> nth_error xs j = Some b -> listed (ix_columns a) = listed (ix_columns b) -> i = j.
Proof.
  intros i j a b Ha Hb L. apply (nodup_same (index_name t) xs i j a b (tf_index_names _ _ _ F) Ha Hb). unfold index_name.
  replace (ix_columns b) with (ix_columns a); [reflexivity|]. apply listed_inj; [apply index_word; eapply nth_error_In; eassumption|apply index_word; eapply nth_error_In; eassumption|exact L].
Qed.
Lemma sole_in_key : forall c, go_word (col_name c) -> (sole_in ks c = true <-> sole_key t (col_name c)).
Proof.
  intros c W. unfold sole_in, own, none. pose proof keys_sound as K. rewrite Forall_forall in K. split.
  - destruct (filter _ ks) as [|k l] eqn:E; [discriminate|]. intros _. assert (H : In k (filter (keyed PRIMARY_KEY (col_name c)) ks)) by (rewrite E; left; reflexivity).
    apply filter_In in H as (H & G). apply keyed_iff in G as (G1 & G2). exists k. split; [apply live_key_in; exact H|]. split; [exact G1|].
    apply listed_one; [apply K; exact H|apply (word_plain _ W)|exact G2].
  - intros (k & Hk & T & E). apply live_key_in in Hk. assert (H : In k (filter (keyed PRIMARY_KEY (col_name c)) ks)).
    { apply filter_In. split; [exact Hk|]. apply keyed_iff. split; [exact T|]. rewrite E. reflexivity. }
    destruct (filter _ ks); [contradiction|reflexivity].
Qed.
Lemma columns_sound : Forall (fun c => go_word (col_name c) /\ column_sound flt d (sole_in ks c) c) (filter shown (tb_columns t)).
Proof.
  apply Forall_forall. intros c Hc. apply live_column_in in Hc. destruct (tf_columns _ _ _ F c Hc) as (C1 & C2 & C3 & C4 & C5 & C6 & C7 & C8 & C9 & C10).
  assert (W : go_word (col_name c)) by apply C1. split; [exact W|].
  split; [exact C4|]. split; [exact C5|]. split; [|auto]. intros D S. apply C6; [exact D|]. apply sole_in_key; assumption.
Qed.
Lemma virtual_free : d = SQLite -> is_virtual t = true -> filter (table_key (tb_columns t)) ks = [].
Proof.
  intros D V. apply filter_none. intros k Hk. pose proof (proj1 (live_key_in t k) Hk) as Lk. unfold table_key.
  destruct (beqb_spec (con_type k) PRIMARY_KEY) as [T|T]; [|reflexivity]. cbn [andb]. apply negb_false_iff.
  destruct (tf_virtual _ _ _ F D V k Lk T) as (n & E). rewrite E. apply bmem_In. destruct (tf_keys _ _ _ F k Lk) as (_ & K2 & _).
  apply K2. rewrite E. left. reflexivity.
Qed.
Lemma table_placed : forall s f, struct_table cur (TableStruct (go_name (tb_name t)) s) (Field [] (B"sq.TableStruct") (table_tag cur t) f)
  = (place_of cur (tb_schema t), tb_name t).
Proof.
  intros s f. unfold struct_table, table_tag. cbn [f_tag ts_name]. pose proof (tf_name _ _ _ F) as W. pose proof (tf_schema _ _ _ F) as (_ & Ns).
  pose proof (word_plain _ W) as (N1 & _ & N3). destruct (tb_schema t) as [|a sn] eqn:Es.
  - cbn [is_empty negb andb orb place_of]. destruct (needs_quoting (tb_name t)) eqn:Nq.
    + replace (is_empty (tb_name t)) with false by (destruct (tb_name t); [congruence|reflexivity]). rewrite (proj2 (cut_byte_None _ _) N3). reflexivity.
    + cbn [is_empty]. rewrite (lower_go _ W Nq). rewrite (proj2 (cut_byte_None _ _) N3). reflexivity.
  - cbn [is_empty negb andb place_of]. destruct (beqb_spec (a :: sn) cur) as [E|E]; cbn [negb orb].
    + destruct (needs_quoting (tb_name t)) eqn:Nq.
      * cbn [app is_empty]. change (a :: sn ++ B"." ++ tb_name t) with ((a :: sn) ++ "."%char :: tb_name t). rewrite (cut_byte_app "."%char) by exact Ns. reflexivity.
      * cbn [is_empty]. rewrite (lower_go _ W Nq). rewrite (proj2 (cut_byte_None _ _) N3). cbn [is_empty]. rewrite E. reflexivity.
    + cbn [app is_empty]. change (a :: sn ++ B"." ++ tb_name t) with ((a :: sn) ++ "."%char :: tb_name t). rewrite (cut_byte_app "."%char) by exact Ns. reflexivity.
Qed.

(** *** The table *)
Lemma compose_rows : forall {A C D} (P : A -> D -> Prop) (g : D -> C) (Q : C -> C -> Prop) (R : A -> C -> Prop) l r cs,
  Forall2 P l r -> Forall2 Q (map g r) cs -> (forall a x y, In a l -> In x r -> P a x -> Q (g x) y -> R a y) -> Forall2 R l cs.
Proof.
  intros A C D P g Q R l r cs H. revert cs. induction H as [|a x l r Hp H IH]; intros cs G K; inversion G; subst; [constructor|].
  constructor; [apply (K a x); auto; left; reflexivity|]. apply IH; [assumption|]. intros; eapply K; eauto; right; assumption.
Qed.
Lemma nodup_in : forall {A} (f : A -> bytes) l a b, NoDup (map f l) -> In a l -> In b l -> f a = f b -> a = b.
Proof.
  intros A f l a b N Ha Hb E. destruct (In_nth_error _ _ Ha) as (i & Hi). destruct (In_nth_error _ _ Hb) as (j & Hj).
  pose proof (nodup_same f l i j a b N Hi Hj E). congruence.
Qed.
Lemma kmem_in : forall k l, kmem k l = true <-> In k l.
Proof.
  intros k l. unfold kmem. rewrite existsb_exists. split.
  - intros (x & Hx & E). apply cache_key_eq in E. subst. exact Hx.
  - intro H. exists k. split; [exact H|]. apply cache_key_eq. reflexivity.
Qed.
Lemma same_key_of : forall k T, a_live_key t k -> tb_name T = tb_name t -> same_key d cur t k (key_of d cur T k).
Proof.
  intros k T Hk En. destruct (tf_keys _ _ _ F k Hk) as (K1 & K2 & K3 & K4 & K5). constructor; try reflexivity; [|split; reflexivity|].
  - cbn [con_name key_of]. unfold key_name. rewrite En. reflexivity.
  - intro Tk. destruct (K5 Tk) as (_ & L1 & L2 & L3 & L4 & L5 & L6 & L7). unfold key_of. rewrite Tk, beqb_refl. cbn.
    split; [|split; [reflexivity|split; [reflexivity|split; [|split; [|symmetry; exact L7]]]]].
    + unfold schema_read. destruct (con_refschema k) as [|a l] eqn:E; [reflexivity|]. cbn [is_empty negb andb].
      destruct (beqb_spec (a :: l) cur) as [Q|Q]; cbn [negb]; [|reflexivity]. cbn [place_of]. symmetry. exact Q.
    + unfold same_rule, rule_read. destruct (con_update k) eqn:E; [left; reflexivity|]. rewrite <- E. cbn [is_empty orb].
      destruct (beqb_spec (con_update k) NO_ACTION) as [->|]; [right; split; [right; reflexivity|left; rewrite orb_true_r; reflexivity]|].
      rewrite E. left. reflexivity.
    + unfold same_rule, rule_read. destruct (con_delete k) eqn:E; [left; reflexivity|]. rewrite <- E. cbn [is_empty orb].
      destruct (beqb_spec (con_delete k) NO_ACTION) as [->|]; [right; split; [right; reflexivity|left; rewrite orb_true_r; reflexivity]|].
      rewrite E. left. reflexivity.
Qed.
Lemma same_index_of : forall x T, tb_name T = tb_name t -> same_index t x (index_of d T x).
Proof.
  intros x T En. constructor; try reflexivity.
  - cbn [ix_name index_of]. unfold index_name. rewrite En. reflexivity.
  - cbn [ix_type index_of]. destruct (ix_type x) as [|a l]; [left; reflexivity|]. cbn [is_empty negb andb].
    destruct (equal_fold (a :: l) (B"BTREE")) eqn:E; cbn [negb]; auto.
Qed.
Theorem table_same : forall s c loc ex rep, read_table cat t = Ok s ->
  let sn := place_of cur (tb_schema t) in let tn := tb_name t in
  blank c sn tn ->
  exists p', fill_table flt d (Parser c (fresh_table sn tn) loc ex rep) (ts_fields (read_back_struct s)) = Ok p'
    /\ ((forall m, ~ In [sn; tn; m] ex) -> same_table d cur (ct_collation cat) t (pa_table p')) /\ pa_reports p' = rep
    /\ (forall k, In k (pa_explicit p') -> In k ex \/ exists m, k = [sn; tn; m]).
Proof.
  intros s c loc ex rep Es sn tn Bl. set (T := fresh_table sn tn). set (p0 := Parser c T loc ex rep).
  destruct (read_table_closed cur ks xs keys_typed keys_once indexes_once cat t s eq_refl eq_refl simple_indexes (tf_column_names _ _ _ F) Es) as (fs & Hf & ->).
  destruct (struct_fields_read flt d cur ks xs keys_sound indexes_whole keys_typed keys_once t (ct_collation cat) (table_tag cur t) fs p0 Hf
    columns_sound (tf_column_names _ _ _ F) (tf_key_names _ _ _ F) (tf_index_names _ _ _ F) virtual_free (fresh_pinv _ _ _ Bl) eq_refl eq_refl eq_refl eq_refl)
    as (r & Hr & p1 & E1 & T1 & I1 & X1 & R1).
  set (cols := tb_columns t) in *. set (AK := all_keys ks cols) in *. set (AX := all_indexes ks xs cols) in *.
  assert (PmK : Permutation AK ks) by (apply all_keys_perm; [exact keys_typed|exact (tf_column_names _ _ _ F)]).
  assert (PmX : Permutation AX xs) by (apply all_indexes_perm; [exact keys_once|exact (tf_column_names _ _ _ F)]).
  change (pa_table p0) with T in *.
  assert (K1 : tb_constraints (pa_table p1) = map (key_of d cur T) AK) by (rewrite T1; reflexivity).
  assert (Q1 : tb_indexes (pa_table p1) = map (index_of d T) AX) by (rewrite T1; reflexivity).
  assert (C1 : tb_columns (pa_table p1) = map fst r) by (rewrite T1; reflexivity).
  assert (LK : forall k, In k AK <-> a_live_key t k) by (intro k; rewrite <- live_key_in; split; apply Permutation_in; [|symmetry]; exact PmK).
  assert (LX : forall x, In x AX <-> a_live_index t x) by (intro x; rewrite <- live_index_in; split; apply Permutation_in; [|symmetry]; exact PmX).
  assert (Nr : map col_name (map fst r) = live_names t).
  { unfold live_names. change (fun c0 => negb (col_ignore c0)) with shown. fold cols. clear - Hr. induction Hr as [|a x l r Hp H IH]; [reflexivity|]. cbn [map]. rewrite IH, (cr_name _ _ _ _ _ _ Hp). reflexivity. }
  assert (NN : NoDup (map col_name (map fst r))) by (rewrite Nr; exact (tf_column_names _ _ _ F)).
  assert (Wh : whole p1).
  { split; [exact I1|]. rewrite C1. split; [exact NN|]. apply Forall_forall. intros x Hx. apply in_map_iff in Hx as (a & <- & Ha).
    clear - Hr Ha. induction Hr as [|c x l r Hp H IH]; [contradiction|]. destruct Ha as [<-|Ha]; [exact (cr_ignore _ _ _ _ _ _ Hp)|auto]. }
  destruct (checks_done d sn tn (pa_explicit p1) flt p0 _ p1 E1 Wh) as (p' & cs & Ef & T2 & X2 & R2 & Fi).
  { rewrite T1. reflexivity. }
  { rewrite T1. reflexivity. }
  { reflexivity. }
  { rewrite K1. apply Forall_forall. intros k' Hk. apply in_map_iff in Hk as (k & <- & Hk). apply LK in Hk. destruct (tf_keys _ _ _ F k Hk) as (A1 & A2 & _ & _ & A5).
    split; [reflexivity|]. split; [rewrite C1, Nr; exact A2|]. intro Tk. cbn [con_type key_of] in Tk. unfold key_of. rewrite Tk, beqb_refl. cbn.
    destruct (A5 Tk) as (_ & L & _). intro Z. rewrite Z in L. destruct (con_columns k); [congruence|discriminate]. }
  { rewrite Q1. apply Forall_forall. intros x' Hx. apply in_map_iff in Hx as (x & <- & Hx). apply LX in Hx. split; [reflexivity|].
    rewrite C1, Nr. apply (tf_indexes _ _ _ F x Hx). }
  { rewrite K1. intros a' b' Ha Hb Ta Tb. apply in_map_iff in Ha as (a & <- & Ha). apply in_map_iff in Hb as (b & <- & Hb). apply LK in Ha. apply LK in Hb.
    cbn [con_columns key_of con_type] in *. rewrite (tf_one_primary _ _ _ F a b Ha Hb Ta Tb). reflexivity. }
  exists p'. split; [exact Ef|]. split; [|split].
  2:{ rewrite R2, R1. reflexivity. }
  2:{ intros k Hk. rewrite X2, X1, in_app_iff in Hk. destruct Hk as [Hk|Hk]; [|left; exact Hk]. right. apply in_rev in Hk. unfold explicit_of in Hk.
      apply in_flat_map in Hk as (a & _ & Hk). destruct (snd a); [|contradiction]. destruct Hk as [<-|[]]. eexists. reflexivity. }
  intro Nx. rewrite K1, C1 in Fi.
  assert (EX : forall a, In a r -> kmem [sn; tn; col_name (fst a)] (pa_explicit p1) = snd a).
  { intros a Ha. apply eq_iff_eq_true. rewrite kmem_in, X1, in_app_iff, <- in_rev. unfold explicit_of. rewrite in_flat_map. split.
    - intros [(b & Hb & G)|G]; [|destruct (Nx _ G)]. destruct (snd b) eqn:Sb; [|contradiction]. destruct G as [G|[]]. injection G as G.
      rewrite map_map in NN. rewrite <- (nodup_in (fun a => col_name (fst a)) r b a NN Hb Ha G). exact Sb.
    - intro Sa. left. exists a. split; [exact Ha|]. rewrite Sa. left. reflexivity. }
  constructor.
  - rewrite T2, T1. reflexivity.
  - rewrite T2, T1. reflexivity.
  - rewrite T2. cbn [tb_columns with_columns]. change (fun c0 => negb (col_ignore c0)) with shown. fold cols.
    eapply compose_rows; [exact Hr|exact Fi|]. intros c0 a y Hc Ha Cr Fy. cbv beta in Cr, Fy.
    pose proof (proj1 (live_column_in t c0) Hc) as Lc. destruct (tf_columns _ _ _ F c0 Lc) as (D1 & D2 & D3 & D4 & D5 & D6 & D7 & D8 & D9 & D10).
    assert (W0 : go_word (col_name c0)) by apply D1.
    assert (S0 : existsb (sole_of (col_name (fst a))) (map (key_of d cur T) AK) = sole_in ks c0).
    { apply eq_iff_eq_true. rewrite (sole_in_key c0 W0), existsb_exists, (cr_name _ _ _ _ _ _ Cr). split.
      - intros (k' & Hk & G). apply in_map_iff in Hk as (k & <- & Hk). apply LK in Hk. unfold sole_of in G. cbn [con_type con_columns key_of] in G.
        apply andb_true_iff in G as (G1 & G2). apply beqb_eq in G1. exists k. split; [exact Hk|]. split; [exact G1|].
        destruct (con_columns k) as [|m [|]]; try discriminate. apply beqb_eq in G2. congruence.
      - intros (k & Hk & G1 & G2). exists (key_of d cur T k). split; [apply in_map; apply LK; exact Hk|]. unfold sole_of. cbn [con_type con_columns key_of].
        rewrite G1, G2, !beqb_refl. reflexivity. }
    rewrite S0 in Fy. destruct Fy as [f1 f2 f3 f4 f5 f6 f7 f8 f9 f10 f11]. rewrite (EX a Ha) in f2. rewrite (cr_type _ _ _ _ _ _ Cr) in f2.
    constructor; try (rewrite ?f1, ?f2, ?f4, ?f5, ?f6, ?f7, ?f8, ?f9, ?f10; apply Cr).
    + exact f2.
    + rewrite f3, f2, (cr_notnull _ _ _ _ _ _ Cr), (cr_pkey _ _ _ _ _ _ Cr), (cr_name _ _ _ _ _ _ Cr). cbn [orb].
      destruct (col_notnull c0) eqn:Nn; [reflexivity|]. cbn [orb].
      destruct (bmem (col_name c0) (primary_columns (map (key_of d cur T) AK))) eqn:Pm; [|reflexivity]. cbn [andb].
      apply bmem_In in Pm. unfold primary_columns in Pm. apply in_flat_map in Pm as (k' & Hk & G). apply in_map_iff in Hk as (k & <- & Hk). apply LK in Hk.
      cbn [con_type con_columns key_of] in G. destruct (beqb_spec (con_type k) PRIMARY_KEY) as [Tk|]; [|contradiction].
      destruct (D7 (ex_intro _ k (conj Hk (conj Tk G)))) as [Z|(Z1 & Z2 & Z3)]; [congruence|].
      rewrite Z1, Z3, (proj2 (sole_in_key c0 W0) Z2), beqb_refl. reflexivity.
  - intros k Hk. exists (key_of d cur T k). split; [|apply same_key_of; [exact Hk|reflexivity]].
    rewrite T2. cbn [tb_constraints with_columns]. rewrite K1. apply in_map. apply LK. exact Hk.
  - intros k' Hk. rewrite T2 in Hk. cbn [tb_constraints with_columns] in Hk. rewrite K1 in Hk. apply in_map_iff in Hk as (k & <- & Hk). apply LK in Hk.
    exists k. split; [exact Hk|apply same_key_of; [exact Hk|reflexivity]].
  - rewrite T2. cbn [tb_constraints with_columns]. rewrite K1, map_map. cbn [con_name key_of].
    eapply Permutation_NoDup; [symmetry; apply Permutation_map; exact PmK|exact (tf_key_names _ _ _ F)].
  - intros x Hx. exists (index_of d T x). split; [|apply same_index_of; reflexivity].
    rewrite T2. cbn [tb_indexes with_columns]. rewrite Q1. apply in_map. apply LX. exact Hx.
  - intros x' Hx. rewrite T2 in Hx. cbn [tb_indexes with_columns] in Hx. rewrite Q1 in Hx. apply in_map_iff in Hx as (x & <- & Hx). apply LX in Hx.
    exists x. split; [exact Hx|apply same_index_of; reflexivity].
  - rewrite T2. cbn [tb_indexes with_columns]. rewrite Q1, map_map. cbn [ix_name index_of].
    eapply Permutation_NoDup; [symmetry; apply Permutation_map; exact PmX|exact (tf_index_names _ _ _ F)].
  - intro D. rewrite T2, T1. cbn [tb_virtual with_columns more with_virtual]. rewrite D. reflexivity.
  - rewrite T2, T1. reflexivity.
Qed.
End Table.

(** ** All tables *)
Section Catalog.
Variables (flt : bytes -> bool) (cat : catalog).
Notation d := (ct_dialect cat).
Notation cur := (ct_current cat).
Notation same := (same_table d cur (ct_collation cat)).
Hypothesis HE : expressible flt cat.
Definition spot (t : table) : bytes * bytes := (place_of cur (tb_schema t), tb_name t).

Lemma mapr_all : forall {A C} (f : A -> result C) l r, mapr f l = Ok r -> Forall2 (fun a c => f a = Ok c) l r.
Proof.
  intros A C f l. induction l as [|a l IH]; intros r E; cbn in E; [injection E as <-; constructor|].
  destruct (f a) as [c| |] eqn:Ea; cbn [bindr] in E; try discriminate. destruct (mapr f l) as [cs| |]; cbn [bindr] in E; try discriminate.
  injection E as <-. constructor; auto.
Qed.
Lemma struct_shape : forall t s, In t (tables_in (ct_schemas cat)) -> read_table cat t = Ok s ->
  exists first fields, ts_fields (read_back_struct s) = first :: fields /\ struct_table cur (read_back_struct s) first = spot t.
Proof.
  intros t s Ht E.
  destruct (read_table_closed cur (live_keys_of t) (live_indexes_of t) (keys_typed t) (keys_once flt cat HE t Ht) (indexes_once flt cat HE t Ht)
    cat t s eq_refl eq_refl (simple_indexes flt cat HE t Ht) (tf_column_names _ _ _ (proj1 HE t Ht)) E) as (fs & _ & ->).
  unfold read_back_struct. cbn [ts_fields ts_name map]. eexists. eexists. split; [reflexivity|]. apply (table_placed flt cat HE t Ht).
Qed.
Lemma structs_placed : forall ts l, incl ts (tables_in (ct_schemas cat)) -> Forall2 (fun t s => read_table cat t = Ok s) ts l ->
  tables_of cur (map read_back_struct l) = map spot ts.
Proof.
  intros ts l H F. induction F as [|t s ts l E F IH]; [reflexivity|]. unfold tables_of in *. cbn [map flat_map]. rewrite IH by (intros x Hx; apply H; right; exact Hx).
  destruct (struct_shape t s (H t (or_introl eq_refl)) E) as (first & fields & Ef & Et). unfold table_of. rewrite Ef, Et. reflexivity.
Qed.
Lemma filled_same : forall ts l a ts' b, incl ts (tables_in (ct_schemas cat)) -> Forall2 (fun t s => read_table cat t = Ok s) ts l ->
  NoDup (map spot ts) -> filled flt d cur (map read_back_struct l) a ts' b ->
  (forall t m, In t ts -> ~ In [fst (spot t); snd (spot t); m] (snd (fst a))) ->
  Forall2 same ts ts' /\ snd b = snd a.
Proof.
  intros ts l a ts' b H F. revert a ts' b. induction F as [|t s ts l E F IH]; intros a ts' b N G X.
  - inversion G; subst. split; [constructor|reflexivity].
  - destruct (struct_shape t s (H t (or_introl eq_refl)) E) as (first & fields & Ef & Et). inversion N as [|? ? Nt N']; subst.
    inversion G as [|? ? ? ? ? Ef'|? ? first' fields' sn tn c loc ex rep p ts0 b0 Ef' Et' Bl p0 Fp Sp G']; subst; [congruence|].
    rewrite Ef in Ef'. injection Ef' as <- <-. unfold spot in Et. rewrite Et in Et'. injection Et' as <- <-.
    destruct (table_same flt cat HE t (H t (or_introl eq_refl)) s c loc ex rep E Bl) as (p' & E' & Sm & Rp & Xp).
    unfold p0 in Fp. rewrite E' in Fp. injection Fp as <-. cbn [fst snd] in X.
    destruct (IH (fun x Hx => H x (or_intror Hx)) _ _ _ N' G') as (I1 & I2).
    + cbn [fst snd]. intros u m Hu Hin. destruct (Xp _ Hin) as [Z|(m' & Z)]; [exact (X u m (or_intror Hu) Z)|].
      injection Z as Z1 Z2 _. apply Nt. replace (spot t) with (spot u); [apply in_map; exact Hu|]. unfold spot. congruence.
    + split; [|rewrite I2; exact Rp]. constructor; [|exact I1]. apply Sm. intros m. exact (X t m (or_introl eq_refl)).
Qed.
Lemma flatr_all_nil : forall {A C} (f : A -> result (list C)) l, (forall a, In a l -> f a = Ok []) -> flatr f l = Ok [].
Proof.
  intros A C f l H. induction l as [|a l IH]; [reflexivity|]. cbn. rewrite H by (left; reflexivity). cbn [bindr].
  rewrite IH by (intros b Hb; apply H; right; exact Hb). reflexivity.
Qed.
Lemma nodup_app_intro : forall {A} (a b : list A), NoDup a -> NoDup b -> (forall x, In x a -> In x b -> False) -> NoDup (a ++ b).
Proof.
  intros A a b Na Nb H. induction Na as [|x a Hx Na IH]; [exact Nb|]. cbn. constructor.
  - rewrite in_app_iff. intros [X|X]; [exact (Hx X)|exact (H x (or_introl eq_refl) X)].
  - apply IH. intros y Hy. apply H. right. exact Hy.
Qed.
Lemma st_ok_distinct : forall st, st_ok st -> NoDup (map (fun t => (tb_schema t, tb_name t)) (all (st_schemas st))).
Proof.
  intros st (J1 & _ & J3 & _). unfold all. revert J1 J3. generalize (st_cache st). intro c. induction (st_schemas st) as [|sc l IH]; intros N O; [constructor|].
  cbn [map flat_map] in *. inversion N as [|? ? Hn N']; subst. inversion O as [|? ? Hs O']; subst. rewrite map_app. destruct Hs as (_ & I2 & _ & I4 & _).
  rewrite Forall_forall in I4. apply nodup_app_intro.
  - unfold names in I2. clear - I2. induction (sc_tables sc) as [|t ts IHt]; [constructor|]. cbn in *. inversion I2 as [|? ? Ht I2']; subst. constructor; [|auto].
    intro X. apply Ht. apply in_map_iff in X as (u & E & Hu). injection E as _ E. rewrite <- E. apply in_map. exact Hu.
  - apply IH; assumption.
  - intros x Hx Hy. apply in_map_iff in Hx as (t & <- & Ht). apply in_map_iff in Hy as (u & E & Hu). injection E as E _.
    apply in_flat_map in Hu as (sc' & Hsc & Hu). rewrite Forall_forall in O'. destruct (O' sc' Hsc) as (_ & _ & _ & I4' & _). rewrite Forall_forall in I4'.
    apply Hn. rewrite <- (proj1 (I4 t Ht)), <- E, (proj1 (I4' u Hu)). apply in_map. exact Hsc.
Qed.
Lemma same_has : forall t t' n, same t t' -> In n (live_names t) -> has_col t' n.
Proof.
  intros t t' n Sm Hn. pose proof (st_columns _ _ _ _ _ Sm) as C. unfold live_names in Hn. apply in_map_iff in Hn as (c & <- & Hc).
  revert Hc C. unfold has_col. generalize (filter (fun c0 => negb (col_ignore c0)) (tb_columns t)). intros l Hc C.
  induction C as [|x y l l' Hxy C IH]; [contradiction|]. destruct Hc as [->|Hc].
  - exists y. split; [left; reflexivity|]. split; [apply Hxy|apply Hxy].
  - destruct (IH Hc) as (z & Hz & Z). exists z. split; [right; exact Hz|exact Z].
Qed.
Lemma forall2_in : forall {A C} (P : A -> C -> Prop) l r, Forall2 P l r ->
  (forall a, In a l -> exists c, In c r /\ P a c) /\ (forall c, In c r -> exists a, In a l /\ P a c).
Proof.
  intros A C P l r H. induction H as [|a c l r Hp H (I1 & I2)]; [split; intros ? []|]. split.
  - intros x [<-|Hx]; [exists c; split; [left; reflexivity|exact Hp]|]. destruct (I1 x Hx) as (y & Hy & Py). exists y. split; [right; exact Hy|exact Py].
  - intros x [<-|Hx]; [exists a; split; [left; reflexivity|exact Hp]|]. destruct (I2 x Hx) as (y & Hy & Py). exists y. split; [right; exact Hy|exact Py].
Qed.

Theorem catalog_same : forall l, read_catalog cat = Ok l ->
  exists schemas, parse_structs flt d cur [] (map read_back_struct l) = Ok (schemas, []) /\ same_catalog cat schemas.
Proof.
  intros l E. unfold read_catalog in E. apply mapr_all in E. fold (tables_in (ct_schemas cat)) in E. set (ts := tables_in (ct_schemas cat)) in *.
  assert (Pl : tables_of cur (map read_back_struct l) = map spot ts) by (apply structs_placed; [apply incl_refl|exact E]).
  assert (Nd : NoDup (map spot ts)) by exact (proj2 HE).
  pose proof (parse_all_ok flt d cur (map read_back_struct l) (Parsing (new_state []) [] [] []) st_ok_empty) as A. rewrite Pl in A.
  specialize (A Nd (fun s t _ sc Hs _ => match Hs with end)). unfold parse_structs.
  destruct (foldr (parse_struct flt d cur) (Parsing (new_state []) [] [] []) (map read_back_struct l)) as [g| |]; [|contradiction|exfalso].
  2:{ destruct A as (s & first & fields & sn & tn & c & loc & ex & rep & Hs & Ef & Et & Bl & Fp). apply in_map_iff in Hs as (s0 & <- & Hs).
      destruct (proj2 (forall2_in _ _ _ E) s0 Hs) as (t & Ht & Er). destruct (struct_shape t s0 Ht Er) as (first' & fields' & Ef' & Et').
      rewrite Ef in Ef'. injection Ef' as <- <-. rewrite Et in Et'. injection Et' as -> ->.
      destruct (table_same flt cat HE t Ht s0 c loc ex rep Er Bl) as (p' & E' & _). rewrite E' in Fp. discriminate. }
  destruct A as (ts' & G & R & J). cbn [bindr].
  destruct (filled_same ts l _ ts' _ (incl_refl _) E Nd G) as (Sm & Rp); [intros t m _ []|].
  destruct (forall2_in _ _ _ Sm) as (S1 & S2). cbn [rest fst snd pg_reports] in Rp.
  assert (IA : forall x, In x (all (st_schemas (pg_state g))) <-> In x ts').
  { intro x. rewrite R, place_list_all. cbn. tauto. }
  destruct (filled_facts _ _ _ _ _ _ _ G) as (_ & _ & Lo & _). cbn [rest fst snd] in Lo.
  pose proof J as (J1 & J2 & J3 & J4). rewrite Forall_forall in J3.
  assert (Is : forall s t, In s (st_schemas (pg_state g)) -> In t (sc_tables s) -> tb_schema t = sc_name s).
  { intros s t Hs Ht. destruct (J3 s Hs) as (_ & _ & _ & I4 & _). rewrite Forall_forall in I4. apply (I4 t Ht). }
  assert (Q : flatr (fun sc => flatr (fun t => flatr (check_foreign_key cur g t) (tb_constraints t)) (sc_tables sc)) (st_schemas (pg_state g)) = Ok []).
  { apply flatr_all_nil. intros sc Hsc. apply flatr_all_nil. intros t' Ht'. apply flatr_all_nil. intros x Hx.
    assert (Hts : In t' ts') by (apply IA; apply in_flat_map; eauto).
    destruct (S2 t' Hts) as (t & Ht & St). destruct (st_keys_back _ _ _ _ _ St x Hx) as (k & Hk & Sk).
    destruct (beqb_spec (con_type x) FOREIGN_KEY) as [Tx|Tx].
    2:{ unfold check_foreign_key. destruct (beqb_spec (con_type x) FOREIGN_KEY); [contradiction|]. rewrite orb_true_r. reflexivity. }
    destruct (check_foreign_key_ok cur g t' x J) as (cs & Ec & Hc). rewrite Ec. f_equal.
    apply (Hc (sk_ignore _ _ _ _ _ Sk) Tx (Lo t' Hts x Hx)). pose proof Tx as Tk. rewrite (sk_type _ _ _ _ _ Sk) in Tk.
    destruct (sk_refer _ _ _ _ _ Sk Tk) as (Y1 & Y2 & Y3 & _). destruct (tf_keys _ _ _ (proj1 HE t Ht) k Hk) as (_ & _ & _ & _ & K5).
    destruct (K5 Tk) as ((u & Hu & U1 & U2 & U3) & _). destruct (S1 u Hu) as (u' & Hu' & Su). apply IA in Hu'. apply in_flat_map in Hu' as (sc' & Hsc' & Hu').
    exists sc', u'. split; [exact Hsc'|]. split.
    { rewrite <- (Is sc' u' Hsc' Hu'), (st_schema _ _ _ _ _ Su), U1, <- Y1. destruct (con_refschema x); reflexivity. }
    split; [exact Hu'|]. split; [rewrite (st_name _ _ _ _ _ Su), Y2; exact U2|]. split; [exact (st_ignore _ _ _ _ _ Su)|].
    rewrite Y3. apply Forall_forall. intros n Hn. apply (same_has u u' n Su). apply U3. exact Hn. }
  rewrite Q. cbn [bindr]. rewrite Rp. exists (st_schemas (pg_state g)). split; [reflexivity|].
  split; [|split; [|split]].
  - intros t Ht. destruct (S1 t Ht) as (t' & Ht' & St). exists t'. split; [apply IA; exact Ht'|exact St].
  - intros t' Ht'. apply S2. apply IA. exact Ht'.
  - apply st_ok_distinct. exact J.
  - exact Is.
Qed.
End Catalog.
