(** Comparing a catalog with itself, C35. *)
From Coq Require Import Lia.
From Verif Require Import GoStr GoStrFacts ModelCatalog ModelCache CacheFacts ModelDdl ModelDiff ModelDiffSql SpecDiff DiffLookup DiffFacts.

Lemma flat_map_none : forall {A C} (f : A -> list C) l, (forall a, In a l -> f a = []) -> flat_map f l = [].
Proof.
  intros A C f l H. induction l as [|a l IH]; cbn; [reflexivity|].
  rewrite (H a (or_introl eq_refl)), IH by (intros b Hb; apply H; right; exact Hb). reflexivity.
Qed.
Lemma filter_none : forall {A} (f : A -> bool) l, (forall a, In a l -> f a = false) -> filter f l = [].
Proof.
  intros A f l H. induction l as [|a l IH]; cbn; [reflexivity|].
  rewrite (H a (or_introl eq_refl)). apply IH. intros b Hb. apply H. right. exact Hb.
Qed.
Lemma nil_if_not_in : forall {A} (l : list A), (forall a, ~ In a l) -> l = [].
Proof. intros A [|a l] H; [reflexivity|]. exfalso. apply (H a). left. reflexivity. Qed.
Lemma keep_nil : forall {A} b, keep b (@nil A) = [].
Proof. intros A [|]; reflexivity. Qed.

Lemma only_cols_self : forall t, NoDup (map col_name (tb_columns t)) -> only_cols t t = [].
Proof.
  intros t N. apply nil_if_not_in. intros a H. apply gone_in in H. destruct H as (Ha & Ia & P).
  unfold find_col in P. rewrite (pick_unique _ _ _ _ N Ha Ia) in P. discriminate.
Qed.
Lemma only_ixs_self : forall t, NoDup (map ix_name (tb_indexes t)) -> only_ixs t t = [].
Proof.
  intros t N. apply nil_if_not_in. intros a H. apply gone_in in H. destruct H as (Ha & Ia & P).
  unfold find_ix in P. rewrite (pick_unique _ _ _ _ N Ha Ia) in P. discriminate.
Qed.
Lemma pairs_cols_self : forall t a b, NoDup (map col_name (tb_columns t)) -> In (a, b) (pairs_cols t t) -> a = b.
Proof.
  intros t a b N H. apply both_in in H. destruct H as (Hb & Ib & P). unfold find_col in P.
  rewrite (pick_unique _ _ _ _ N Hb Ib) in P. congruence.
Qed.
Lemma find_con_self : forall t a, NoDup (map con_name (tb_constraints t)) -> In a (tb_constraints t) -> con_ignore a = false ->
  find_con t (con_name a) = if some_name (con_name a) then Some a else None.
Proof.
  intros t a N Ha Ia. unfold find_con, pick_con. destruct (some_name (con_name a)); [|reflexivity].
  apply pick_unique; assumption.
Qed.
Lemma pairs_cons_self : forall t a b, NoDup (map con_name (tb_constraints t)) -> In (a, b) (pairs_cons t t) -> a = b.
Proof.
  intros t a b N H. apply both_in in H. destruct H as (Hb & Ib & P).
  rewrite (find_con_self _ _ N Hb Ib) in P. destruct (some_name (con_name b)); congruence.
Qed.
Definition keys_named (t : table) : Prop :=
  forall c, In c (tb_constraints t) -> is_key c = true \/ is_fkey c = true -> con_name c <> [].
Lemma only_cons_self : forall t c, NoDup (map con_name (tb_constraints t)) -> keys_named t -> In c (only_cons t t) ->
  is_key c = false /\ is_fkey c = false.
Proof.
  intros t c N K H. apply gone_in in H. destruct H as (Hc & Ic & P).
  rewrite (find_con_self _ _ N Hc Ic) in P. destruct (some_name (con_name c)) eqn:S; [discriminate|].
  assert (E : con_name c = []).
  { unfold some_name in S. apply negb_false_iff in S. apply beqb_eq in S. exact S. }
  split.
  - destruct (is_key c) eqn:F; [|reflexivity]. exfalso. apply (K c Hc); auto.
  - destruct (is_fkey c) eqn:F; [|reflexivity]. exfalso. apply (K c Hc); auto.
Qed.

Lemma beqb_refl : forall s, beqb s s = true.
Proof. intro s. apply beqb_eq. reflexivity. Qed.
Lemma teqb_refl : forall x, teqb x x = true.
Proof. intros [[a b] c]. unfold teqb. rewrite !beqb_refl. reflexivity. Qed.
Lemma differs_self : forall d coll a, differs d coll a a = false.
Proof.
  intros d coll a. unfold differs, same_default, same_collation. rewrite teqb_refl, !beqb_refl, !xorb_nilpotent. reflexivity.
Qed.
Lemma differs_sqlserver_self : forall coll a, differs_sqlserver coll a a = false.
Proof.
  intros coll a. unfold differs_sqlserver, same_default, same_collation. rewrite teqb_refl, !beqb_refl, !xorb_nilpotent. reflexivity.
Qed.

Definition tidy (t : table) : Prop :=
  NoDup (map col_name (tb_columns t)) /\ NoDup (map con_name (tb_constraints t)) /\ NoDup (map ix_name (tb_indexes t))
  /\ keys_named t.

Lemma filter_keep_self : forall f b t, (forall c, In c (only_cons t t) -> f c = false) -> filter f (keep b (only_cons t t)) = [].
Proof. intros f [|] t H; [|reflexivity]. apply filter_none. exact H. Qed.

Lemma altered_self : forall d coll t, NoDup (map col_name (tb_columns t)) -> altered d coll t t = [].
Proof.
  intros d coll t N. apply filter_none. intros [a b] H. apply (pairs_cols_self _ _ _ N) in H. subst b. apply differs_self.
Qed.
Lemma altered_sqlserver_self : forall coll t, NoDup (map col_name (tb_columns t)) -> altered_sqlserver coll t t = [].
Proof.
  intros coll t N. apply filter_none. intros [a b] H. apply (pairs_cols_self _ _ _ N) in H. subst b. apply differs_sqlserver_self.
Qed.

Lemma mysql_self : forall cat drop t, tidy t -> mysql_changes cat drop t t = [].
Proof.
  intros cat drop t (N1 & N2 & N3 & K). unfold mysql_changes, the_alter_mysql.
  assert (F1 : forall c, In c (only_cons t t) -> is_key c = false) by (intros c H; apply (only_cons_self t c N2 K H)).
  assert (F2 : forall c, In c (only_cons t t) -> is_fkey c = false) by (intros c H; apply (only_cons_self t c N2 K H)).
  rewrite !(filter_keep_self _ _ _ F1), !(filter_keep_self _ _ _ F2), (filter_none _ _ F2).
  rewrite (only_ixs_self _ N3), (only_cols_self _ N1), (altered_self _ _ _ N1), !keep_nil.
  assert (E : filter (fun '(a, b) => rekeyed a b) (pairs_cons t t) = []).
  { apply filter_none. intros [a b] H. apply (pairs_cons_self _ _ _ N2) in H. subst b.
    unfold rekeyed. rewrite beqb_refl, andb_false_r. reflexivity. }
  rewrite E. clear E.
  assert (E : added_mysql t t = []).
  { apply flat_map_none. intros c Hc. destruct (con_ignore c) eqn:Ic; [reflexivity|].
    rewrite (find_con_self _ _ N2 Hc Ic). destruct (some_name (con_name c)) eqn:S.
    - unfold rekeyed. rewrite beqb_refl, andb_false_r. reflexivity.
    - rewrite F1; [reflexivity|]. apply gone_in. rewrite (find_con_self _ _ N2 Hc Ic), S. auto. }
  rewrite E. reflexivity.
Qed.

Lemma postgres_self : forall cat drop t, tidy t -> postgres_changes cat drop t t = [].
Proof.
  intros cat drop t (N1 & N2 & N3 & K). unfold postgres_changes, the_alter_postgres.
  assert (F1 : forall c, In c (only_cons t t) -> is_key c = false) by (intros c H; apply (only_cons_self t c N2 K H)).
  assert (F2 : forall c, In c (only_cons t t) -> is_fkey c = false) by (intros c H; apply (only_cons_self t c N2 K H)).
  rewrite !(filter_keep_self _ _ _ F1), !(filter_keep_self _ _ _ F2), (filter_none _ _ F1), (filter_none _ _ F2).
  rewrite (only_ixs_self _ N3), (only_cols_self _ N1), (altered_self _ _ _ N1), !keep_nil.
  assert (E : changed_constraints t t = []).
  { apply filter_none. intros [a b] H. apply (pairs_cons_self _ _ _ N2) in H. subst b. rewrite !xorb_nilpotent. reflexivity. }
  rewrite E. clear E.
  assert (E : old_pkey drop t t = None).
  { unfold old_pkey. replace (existsb is_pkey (only_cons t t)) with false; [reflexivity|]. symmetry.
    apply not_true_is_false. intro H. apply existsb_exists in H. destruct H as (c & Hc & P). apply F1 in Hc.
    unfold is_key in Hc. unfold is_pkey in P. rewrite P in Hc. discriminate. }
  rewrite E. reflexivity.
Qed.

Lemma sqlserver_self : forall cat drop t, tidy t -> sqlserver_changes cat drop t t = [].
Proof.
  intros cat drop t (N1 & N2 & N3 & K). unfold sqlserver_changes, the_alter_sqlserver.
  assert (F1 : forall c, In c (only_cons t t) -> is_key c = false) by (intros c H; apply (only_cons_self t c N2 K H)).
  assert (F2 : forall c, In c (only_cons t t) -> is_fkey c = false) by (intros c H; apply (only_cons_self t c N2 K H)).
  rewrite !(filter_keep_self _ _ _ F1), !(filter_keep_self _ _ _ F2), (filter_none _ _ F1), (filter_none _ _ F2).
  unfold dep_ixs, dep_cons.
  rewrite (only_ixs_self _ N3), (only_cols_self _ N1), (altered_sqlserver_self _ _ N1), !keep_nil.
  assert (E : warned t t = []).
  { apply filter_none. intros [a b] H. apply (pairs_cols_self _ _ _ N1) in H. subst b. apply andb_negb_r. }
  rewrite E. clear E.
  assert (E : replaced drop t t = []).
  { unfold replaced. destruct (live_pos con_ignore (tb_constraints t) (pkpos (tb_constraints t))) as [i|]; [|reflexivity].
    destruct (nth_error (tb_constraints t) i); [|reflexivity]. rewrite beqb_refl, andb_false_r. reflexivity. }
  rewrite E. reflexivity.
Qed.

Lemma find_schema_self : forall l s, NoDup (map sc_name l) -> In s l -> sc_ignore s = false -> find_schema l (sc_name s) = Some s.
Proof. intros l s N Hs Is. apply pick_unique; assumption. Qed.

Lemma all_changes_self : forall alter drop l, unique_tables l ->
  (forall s t, In s l -> In t (sc_tables s) -> alter t t = []) -> all_changes alter drop l l = [].
Proof.
  intros alter drop l (N & U) H. unfold all_changes, live_schemas.
  rewrite (flat_map_none (drop_schema_changes l)), keep_nil.
  - apply flat_map_none. intros s Hs. apply filter_In in Hs. destruct Hs as (Hs & Is). apply negb_true_iff in Is.
    destruct (U s Hs) as (Nt & _). unfold schema_changes. rewrite (find_schema_self _ _ N Hs Is). unfold live_tables.
    rewrite (flat_map_none (drop_table_changes s)), keep_nil.
    + apply flat_map_none. intros t Ht. apply filter_In in Ht. destruct Ht as (Ht & It). apply negb_true_iff in It.
      unfold table_changes, find_table. rewrite (pick_unique _ _ _ _ Nt Ht It). apply (H s); assumption.
    + intros t Ht. apply filter_In in Ht. destruct Ht as (Ht & It). apply negb_true_iff in It.
      unfold drop_table_changes, find_table. rewrite (pick_unique _ _ _ _ Nt Ht It). reflexivity.
  - intros s Hs. apply filter_In in Hs. destruct Hs as (Hs & Is). apply negb_true_iff in Is.
    unfold drop_schema_changes. rewrite (find_schema_self _ _ N Hs Is). reflexivity.
Qed.

Theorem self_is_quiet : forall d flt prefix c drop, sql_dialect d = true ->
  unique_names (ct_schemas c) -> named_keys (ct_schemas c) -> readable_types d (ct_schemas c) ->
  results d flt prefix c c drop = Ok ([], []).
Proof.
  intros d flt prefix c drop Q (U & N) K R.
  assert (E : changes (code_alter d) c c drop = Ok []).
  { rewrite (pure_changes d c c drop Q U U R R). f_equal. apply all_changes_self; [exact U|].
    intros s t Hs Ht. destruct (N s t Hs Ht) as (N1 & N2 & N3).
    assert (T : tidy t).
    { split; [exact N1|]. split; [exact N2|]. split; [exact N3|]. intros x Hx Y. apply (K s t x Hs Ht Hx).
      unfold is_key, is_fkey in Y. rewrite orb_true_iff, !beqb_eq in Y. tauto. }
    destruct d; try discriminate Q; [apply postgres_self|apply mysql_self|apply sqlserver_self]; exact T. }
  destruct d; try discriminate Q; cbn [results code_alter] in *;
    unfold new_mysql_migration, new_postgres_migration, new_sqlserver_migration; rewrite E; reflexivity.
Qed.
