(** Generating again for a database that agrees with the destination. *)
From Coq Require Import Lia.
From Verif Require Import GoStr GoStrFacts ModelCatalog ModelCache CacheFacts ModelDdl ModelDiff ModelDiffSql SpecDiff DiffLookup DiffFacts DiffSelf
  DiffPlan DiffSegments DiffCreate DiffOrder SpecApply ApplyFacts ApplyNames ApplyAlter ApplyPair ApplyPlan.

Lemma alike_same : forall d coll a b, alike d coll (stored a) b -> differs d coll a b = false.
Proof.
  intros d coll a b ((x & X & Y) & A2 & A3 & A4 & A5). unfold differs. cbn in *. unfold norm. rewrite X, Y, A3, xorb_nilpotent, teqb_refl. cbn.
  unfold same_default. rewrite A2, beqb_refl. cbn. unfold same_collation, or_default.
  assert (E : xorb (is_empty (col_identity a)) (is_empty (col_identity b)) = false).
  { destruct (col_identity a) as [|c l]; destruct (col_identity b) as [|e m]; cbn; try reflexivity; exfalso.
    - destruct A4 as (A4 & _). discriminate (A4 eq_refl).
    - destruct A4 as (_ & A4). discriminate (A4 eq_refl). }
  rewrite E. cbn. apply negb_false_iff. apply beqb_eq.
  destruct (col_collation a), (col_collation b); cbn; exact A5.
Qed.

Section Again.
Context (d : dialect) (cur : bytes) (cs cd : catalog) (x : database).
Let coll := ct_collation cs.
Let src := ct_schemas cs.
Let dest := ct_schemas cd.
Hypothesis DD : d = MySQL \/ d = Postgres.
Hypothesis Os : orderly src.
Hypothesis Od : orderly dest.
Hypothesis DS : describes src x.
Hypothesis AG : agrees d cur coll x dest.

Section Pair.
Context (q : qname) (s t : table).
Hypothesis Ls : located src q s.
Hypothesis Lt : located dest q t.
Lemma the_table : exists dt, db_tables x q = Some dt /\ shows s dt /\ agrees_table d cur coll dt t.
Proof.
  destruct DS as (_ & D2 & D3). destruct AG as (_ & _ & A3). destruct (proj2 (D2 q) (ex_intro _ s Ls)) as (dt & E).
  exists dt. split; [exact E|]. split; [exact (D3 q s dt Ls E)|exact (A3 q t dt Lt E)].
Qed.
Lemma same_cols : forall n, called col_name (tb_columns s) n = None <-> called col_name (tb_columns t) n = None.
Proof.
  intro n. destruct the_table as (dt & _ & SH & (A1 & _)). destruct (SH n) as (S1 & _). rewrite <- A1, S1.
  destruct (called col_name (tb_columns s) n); cbn; split; congruence.
Qed.
Lemma same_ixs : forall n, called ix_name (tb_indexes s) n = None <-> called ix_name (tb_indexes t) n = None.
Proof.
  intro n. destruct the_table as (dt & _ & SH & (_ & _ & _ & _ & _ & A6)). destruct (SH n) as (_ & _ & S3). rewrite <- A6, S3. reflexivity.
Qed.
Lemma no_col : only_cols s t = [].
Proof.
  apply nil_if_not_in. intros c Hc. apply (only_cols_in src dest q s t c Os Od Ls Lt) in Hc. destruct Hc as (Hc & N). apply same_cols in N.
  rewrite (called_in _ _ _ (orderly_columns _ Os _ _ Ls) Hc) in N. discriminate.
Qed.
Lemma no_col' : only_cols t s = [].
Proof.
  apply nil_if_not_in. intros c Hc. apply (only_cols_in dest src q t s c Od Os Lt Ls) in Hc. destruct Hc as (Hc & N). apply same_cols in N.
  rewrite (called_in _ _ _ (orderly_columns _ Od _ _ Lt) Hc) in N. discriminate.
Qed.
Lemma no_ix : only_ixs s t = [].
Proof.
  apply nil_if_not_in. intros c Hc. apply (only_ixs_in src dest q s t c Os Od Ls Lt) in Hc. destruct Hc as (Hc & N). apply same_ixs in N.
  rewrite (called_in _ _ _ (orderly_indexes _ Os _ _ Ls) Hc) in N. discriminate.
Qed.
Lemma no_ix' : only_ixs t s = [].
Proof.
  apply nil_if_not_in. intros c Hc. apply (only_ixs_in dest src q t s c Od Os Lt Ls) in Hc. destruct Hc as (Hc & N). apply same_ixs in N.
  rewrite (called_in _ _ _ (orderly_indexes _ Od _ _ Lt) Hc) in N. discriminate.
Qed.
Lemma no_alter : altered d coll s t = [].
Proof.
  apply filter_none. intros (a & b) Hab. apply (pairs_cols_in src dest q s t a b Os Od Ls Lt) in Hab. destruct Hab as (Hb & Ha).
  destruct the_table as (dt & _ & SH & (_ & A2 & _)). apply alike_same. apply (A2 (col_name b)).
  - destruct (SH (col_name b)) as (S1 & _). rewrite S1, Ha. reflexivity.
  - apply called_in; [exact (orderly_columns _ Od _ _ Lt)|exact Hb].
Qed.
(** Keys of one are keys of the other. *)
Lemma keys_there : forall k, In k (tb_constraints s) -> unique_key k \/ foreign k -> called con_name (tb_constraints t) (con_name k) <> None.
Proof.
  intros k Hk K N. destruct the_table as (dt & _ & SH & (_ & _ & A3 & _)). destruct (SH (con_name k)) as (_ & S2 & _).
  rewrite (called_in _ _ _ (orderly_constraints _ Os _ _ Ls) Hk) in S2. destruct (A3 _ _ S2 K) as (b & Hb). congruence.
Qed.
Lemma keys_here : forall k, In k (tb_constraints t) -> unique_key k \/ foreign k ->
  exists a, called con_name (tb_constraints s) (con_name k) = Some a /\ same_constraint cur a k.
Proof.
  intros k Hk K. destruct the_table as (dt & _ & SH & (_ & _ & _ & A4 & _)). destruct (SH (con_name k)) as (_ & S2 & _).
  destruct (A4 (con_name k) k) as (a & Ha & Sa); [apply called_in; [exact (orderly_constraints _ Od _ _ Lt)|exact Hk]|exact K|]. exists a. rewrite <- S2. auto.
Qed.
Lemma no_con : forall f, (forall k, f k = true -> unique_key k \/ foreign k) -> filter f (only_cons s t) = [].
Proof.
  intros f F. apply filter_none. intros k Hk. apply (only_cons_in src dest q s t k Os Od Ls Lt) in Hk. destruct Hk as (Hk & N).
  destruct (f k) eqn:E; [|reflexivity]. contradiction (keys_there k Hk (F k E) N).
Qed.
Lemma no_con' : forall f, (forall k, f k = true -> unique_key k \/ foreign k) -> filter f (only_cons t s) = [].
Proof.
  intros f F. apply filter_none. intros k Hk. apply (only_cons_in dest src q t s k Od Os Lt Ls) in Hk. destruct Hk as (Hk & N).
  destruct (f k) eqn:E; [|reflexivity]. destruct (keys_here k Hk (F k E)) as (a & Ha & _). congruence.
Qed.
Lemma is_key_key : forall k, is_key k = true -> unique_key k \/ foreign k.
Proof. intros k H. left. apply is_key_spec. exact H. Qed.
Lemma is_fkey_key : forall k, is_fkey k = true -> unique_key k \/ foreign k.
Proof. intros k H. right. apply is_fkey_spec. exact H. Qed.
Lemma not_rekeyed : forall a b, In b (tb_constraints t) -> called con_name (tb_constraints s) (con_name b) = Some a -> rekeyed a b = false.
Proof.
  intros a b Hb Ha. unfold rekeyed. destruct (is_pkey b) eqn:P; [|reflexivity]. apply is_pkey_spec in P.
  destruct (keys_here b Hb (or_introl (primary_key_is b P))) as (a' & Ha' & (_ & C & _)). assert (a' = a) by congruence. subst a'. rewrite C, beqb_refl. reflexivity.
Qed.
Lemma no_rekey : filter (fun '(a, b) => rekeyed a b) (pairs_cons s t) = [].
Proof.
  apply filter_none. intros (a & b) Hab. apply (pairs_cons_in src dest q s t a b Os Od Ls Lt) in Hab. apply not_rekeyed; apply Hab.
Qed.
Lemma nothing_added : added_mysql s t = [].
Proof.
  apply flat_map_none. intros b Hb. destruct (con_facts _ Od _ _ _ Lt Hb) as (-> & NE & _). rewrite (find_con_called _ Os _ _ _ Ls NE).
  destruct (called con_name (tb_constraints s) (con_name b)) as [a|] eqn:Ha; [rewrite (not_rekeyed a b Hb Ha); reflexivity|].
  destruct (is_key b) eqn:K; [|reflexivity]. destruct (keys_here b Hb (is_key_key b K)) as (a & Ha' & _). congruence.
Qed.
Lemma nothing_changed : d = Postgres -> changed_constraints s t = [].
Proof.
  intro D. apply filter_none. intros (a & b) Hab. apply (pairs_cons_in src dest q s t a b Os Od Ls Lt) in Hab. destruct Hab as (Hb & Ha).
  destruct the_table as (dt & _ & SH & (_ & _ & _ & _ & A5 & _)). destruct (SH (con_name b)) as (_ & S2 & _). rewrite Ha in S2.
  destruct (A5 D _ _ _ S2 (called_in _ _ _ (orderly_constraints _ Od _ _ Lt) Hb)) as (-> & ->). rewrite !xorb_nilpotent. reflexivity.
Qed.
Lemma no_changes : pure_alter d cs true s t = [].
Proof.
  pose proof no_alter as NA. unfold coll in NA. destruct DD as [D|D].
  - replace (pure_alter d cs true s t) with (mysql_changes cs true s t) by (rewrite D; reflexivity). rewrite D in NA.
    unfold mysql_changes, the_alter_mysql. cbn [keep]. rewrite !(no_con _ is_fkey_key), !(no_con' _ is_fkey_key), !(no_con _ is_key_key).
    rewrite no_col, no_col', no_ix, no_ix', no_rekey, nothing_added, NA. reflexivity.
  - replace (pure_alter d cs true s t) with (postgres_changes cs true s t) by (rewrite D; reflexivity). rewrite D in NA.
    unfold postgres_changes, the_alter_postgres. cbn [keep]. rewrite !(no_con _ is_fkey_key), !(no_con' _ is_fkey_key), !(no_con _ is_key_key), !(no_con' _ is_key_key).
    rewrite no_col, no_col', no_ix, no_ix', NA, (nothing_changed D). unfold old_pkey. rewrite andb_false_r. reflexivity.
Qed.
End Pair.

Lemma same_places : forall q, (exists s, located src q s) <-> exists t, located dest q t.
Proof. intro q. destruct DS as (_ & D2 & _). destruct AG as (_ & A2 & _). rewrite <- D2, <- A2. reflexivity. Qed.
Lemma same_schemas : forall n, In n (map sc_name src) <-> In n (map sc_name dest).
Proof. intro n. destruct DS as (D1 & _). destruct AG as (A1 & _). rewrite <- D1, <- A1. reflexivity. Qed.
Lemma nothing_to_do : all_changes (pure_alter d cs true) true src dest = [].
Proof.
  apply nil_if_not_in. intros c Hc. apply (changes_are src dest Os Od) in Hc.
  destruct Hc as [(s & Hs & N & _)|[(s & Hs & N & _)|[(q & s & L & N & _)|[(q & t & L & N & _)|(q & s & t & L1 & L2 & H)]]]].
  - apply N. apply same_schemas. apply in_map. exact Hs.
  - apply N. apply same_schemas. apply in_map. exact Hs.
  - destruct (proj1 (same_places q) (ex_intro _ s L)) as (t & Lt). exact (N t Lt).
  - destruct (proj2 (same_places q) (ex_intro _ t L)) as (s & Ls). exact (N s Ls).
  - rewrite (no_changes q s t L1 L2) in H. exact H.
Qed.
End Again.

Theorem agreement_is_quiet : forall d flt prefix cur src dest x, d = MySQL \/ d = Postgres ->
  orderly (ct_schemas src) -> orderly (ct_schemas dest) -> readable_types d (ct_schemas src) -> readable_types d (ct_schemas dest) ->
  describes (ct_schemas src) x -> agrees d cur (ct_collation src) x (ct_schemas dest) ->
  results d flt prefix src dest true = Ok ([], []).
Proof.
  intros d flt prefix cur src dest x DD Os Od Rs Rd D A.
  assert (Q : sql_dialect d = true) by (destruct DD as [->| ->]; reflexivity).
  assert (E : changes (code_alter d) src dest true = Ok []).
  { rewrite (pure_changes d src dest true Q (orderly_tables _ Os) (orderly_tables _ Od) Rs Rd). f_equal. exact (nothing_to_do d cur src dest x DD Os Od D A). }
  destruct DD as [->| ->]; cbn [results code_alter] in *; unfold new_mysql_migration, new_postgres_migration; rewrite E; reflexivity.
Qed.
