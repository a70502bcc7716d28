(** Proofs about reading table structs: the fields of a struct give the columns, keys and
    indexes of its table. *)
From Coq Require Import Lia Permutation.
From Verif Require Import GoStr GoStrFacts ModelCatalog ModelCache SpecCache CacheFacts CopyFacts ModelDdl DdlFacts
  ModelModifier SpecModifier ModifierFacts ModelDiff ModelDiffSql DiffLookup ModelGoTag ModelStructs ModelParser ParserFacts ParserTables
  SpecStructs SpecSame ReadKeys WriteKeys GoText ReadColumns.

Local Arguments PRIMARY_KEY : simpl never.
Local Arguments FOREIGN_KEY : simpl never.
Local Arguments UNIQUE : simpl never.
Local Arguments generate_name : simpl never.
Local Arguments B : simpl never.

(** ** Rearranged lists *)
Lemma perm_or : forall {A} (f g : A -> bool) l, (forall x, In x l -> f x = true -> g x = true -> False) ->
  Permutation (filter f l ++ filter g l) (filter (fun x => f x || g x) l).
Proof.
  intros A f g l. induction l as [|a l IH]; intro H; [constructor|]. cbn [filter].
  assert (IH' := IH (fun x Hx => H x (or_intror Hx))). destruct (f a) eqn:Fa; cbn [orb].
  - destruct (g a) eqn:Ga; [destruct (H a (or_introl eq_refl) Fa Ga)|]. cbn [app]. constructor. exact IH'.
  - destruct (g a) eqn:Ga; [|exact IH']. eapply perm_trans; [symmetry; apply Permutation_middle|]. constructor. exact IH'.
Qed.
Lemma perm_split : forall {A} (f : A -> bool) l, Permutation (filter f l ++ filter (fun x => negb (f x)) l) l.
Proof.
  intros A f l. eapply perm_trans; [apply perm_or; intros x _ H; rewrite H; discriminate|].
  rewrite (filter_ext _ (fun _ => true)) by (intro x; destruct (f x); reflexivity). clear. induction l; cbn; [constructor|]. constructor. assumption.
Qed.
Lemma flat_filter : forall {A} (v : A -> bytes) l names, NoDup names ->
  Permutation (flat_map (fun n => filter (fun x => beqb (v x) n) l) names) (filter (fun x => bmem (v x) names) l).
Proof.
  intros A v l names N. induction N as [|n names Hn N IH].
  - cbn. rewrite (filter_none _ l) by reflexivity. constructor.
  - cbn [flat_map]. eapply perm_trans; [apply Permutation_app_head; exact IH|]. eapply perm_trans.
    + apply perm_or. intros x _ E M. apply beqb_eq in E. apply bmem_In in M. congruence.
    + rewrite (filter_ext _ (fun x => bmem (v x) (n :: names))) by reflexivity. apply Permutation_refl.
Qed.
Lemma filter_and : forall {A} (f g : A -> bool) l, filter f (filter g l) = filter (fun x => g x && f x) l.
Proof. intros A f g l. induction l as [|a l IH]; [reflexivity|]. cbn. destruct (g a); cbn; [destruct (f a); rewrite IH; reflexivity|exact IH]. Qed.

Section Table.
Variables (ks : list constraint) (xs : list index) (cols : list column).
Hypothesis KT : forall k, In k ks -> key_type (con_type k).
Hypothesis KU : forall i j a b, nth_error ks i = Some a -> nth_error ks j = Some b ->
  con_type a = con_type b -> con_type a = PRIMARY_KEY \/ listed (con_columns a) = listed (con_columns b) -> i = j.
Hypothesis XU : forall i j a b, nth_error xs i = Some a -> nth_error xs j = Some b ->
  listed (ix_columns a) = listed (ix_columns b) -> i = j.
Hypothesis NC : NoDup (map col_name (filter shown cols)).
Let names := map col_name (filter shown cols).

Definition all_keys : list constraint :=
  filter (table_key cols) ks ++ flat_map (fun c => column_keys (col_name c) ks) (filter shown cols) ++ filter (rest_key cols) ks.
Definition all_indexes : list index :=
  flat_map (fun c => column_indexes (col_name c) ks xs) (filter shown cols)
  ++ flat_map (nest xs) (filter (rest_key cols) ks) ++ filter (rest_index ks cols) xs.

Lemma column_keys_perm : forall n, Permutation (column_keys n ks) (filter (fun k => beqb (listed (con_columns k)) n) ks).
Proof.
  intro n. unfold column_keys, own. destruct key_types as (T1 & T2 & T3).
  eapply perm_trans; [apply Permutation_app_head; apply perm_or; intros k _ A C; apply keyed_iff in A; apply keyed_iff in C; destruct A, C; congruence|].
  eapply perm_trans; [apply perm_or; intros k _ A C; apply keyed_iff in A; apply orb_true_iff in C; destruct C as [C|C]; apply keyed_iff in C; destruct A, C; congruence|].
  rewrite (filter_ext_in _ (fun k => beqb (listed (con_columns k)) n)); [apply Permutation_refl|].
  intros k Hk. unfold keyed. destruct (KT k Hk) as [E|[E|E]]; rewrite E.
  - rewrite beqb_refl. destruct (beqb_spec PRIMARY_KEY UNIQUE); [congruence|]. destruct (beqb_spec PRIMARY_KEY FOREIGN_KEY); [congruence|].
    cbn [andb]. rewrite !orb_false_r. reflexivity.
  - rewrite beqb_refl. destruct (beqb_spec UNIQUE PRIMARY_KEY); [congruence|]. destruct (beqb_spec UNIQUE FOREIGN_KEY); [congruence|].
    cbn [andb orb]. rewrite !orb_false_r. reflexivity.
  - rewrite beqb_refl. destruct (beqb_spec FOREIGN_KEY PRIMARY_KEY); [congruence|]. destruct (beqb_spec FOREIGN_KEY UNIQUE); [congruence|].
    cbn [andb orb]. reflexivity.
Qed.
Lemma flat_perm : forall {A C} (f g : A -> list C) l, (forall a, In a l -> Permutation (f a) (g a)) -> Permutation (flat_map f l) (flat_map g l).
Proof.
  intros A C f g l H. induction l as [|a l IH]; [constructor|]. cbn. apply Permutation_app; [apply H; left; reflexivity|].
  apply IH. intros b Hb. apply H. right. exact Hb.
Qed.
Lemma flat_names : forall {C} (f : bytes -> list C) (l : list column), flat_map (fun c => f (col_name c)) l = flat_map f (map col_name l).
Proof. intros C f l. induction l as [|c l IH]; [reflexivity|]. cbn. rewrite IH. reflexivity. Qed.
Lemma all_keys_perm : Permutation all_keys ks.
Proof.
  unfold all_keys. rewrite (flat_names (fun n => column_keys n ks)). fold names.
  assert (E : Permutation (flat_map (fun n => column_keys n ks) names) (filter (fun k => in_column cols (listed (con_columns k))) ks)).
  { eapply perm_trans; [apply flat_perm; intros n _; apply column_keys_perm|]. apply (flat_filter (fun k => listed (con_columns k)) ks names NC). }
  eapply perm_trans; [apply Permutation_app_head; apply Permutation_app_tail; exact E|].
  eapply perm_trans; [apply Permutation_app_head; apply Permutation_app_comm|]. rewrite app_assoc.
  eapply perm_trans; [apply Permutation_app_tail; apply perm_or; unfold table_key, rest_key; intros k _ A C; destruct (beqb (con_type k) PRIMARY_KEY); discriminate|].
  eapply perm_trans; [apply Permutation_app_comm|].
  eapply perm_trans; [|apply (perm_split (fun k => in_column cols (listed (con_columns k))))]. apply Permutation_app_head.
  rewrite (filter_ext _ (fun k => negb (in_column cols (listed (con_columns k))))); [apply Permutation_refl|].
  intro k. unfold table_key, rest_key. destruct (beqb (con_type k) PRIMARY_KEY), (in_column cols (listed (con_columns k))); reflexivity.
Qed.
Lemma column_indexes_eq : forall n, column_indexes n ks xs = filter (fun x => beqb (listed (ix_columns x)) n) xs.
Proof.
  intro n. unfold column_indexes. set (f := fun x => beqb (listed (ix_columns x)) n).
  destruct (last_where (keyed FOREIGN_KEY n) ks) as [i|] eqn:E.
  - destruct (last_where_some _ _ _ E) as (k & Hk & Fk). unfold own. rewrite (single_filter _ _ i k (keyed_single ks KU FOREIGN_KEY n) Hk Fk).
    apply keyed_iff in Fk as (F1 & F2). cbn [flat_map]. rewrite app_nil_r. unfold nest, hits, is_fk. rewrite F1, beqb_refl, F2.
    unfold own_index. rewrite (filter_none (fun x => beqb (listed (ix_columns x)) n && negb (inside ks x))); [apply app_nil_r|].
    intros x Hx. destruct (beqb_spec (listed (ix_columns x)) n) as [Ex|]; [|reflexivity]. cbn [andb]. apply negb_false_iff. unfold inside.
    apply existsb_exists. exists k. split; [eapply nth_error_In; exact Hk|]. apply keyed_iff. split; congruence.
  - unfold own. rewrite (filter_none _ _ (last_where_none _ _ E)). cbn [flat_map app]. unfold own_index. apply filter_ext_in. intros x Hx. unfold f.
    destruct (beqb_spec (listed (ix_columns x)) n) as [Ex|]; [|reflexivity]. cbn [andb]. apply negb_true_iff. unfold inside. rewrite Ex.
    destruct (existsb (keyed FOREIGN_KEY n) ks) eqn:X; [|reflexivity]. apply existsb_exists in X as (k & Hk & Fk).
    rewrite (last_where_none _ _ E k Hk) in Fk. discriminate.
Qed.
Lemma nodup_by : forall {A K} (v : A -> K) l, (forall i j a b, nth_error l i = Some a -> nth_error l j = Some b -> v a = v b -> i = j) -> NoDup (map v l).
Proof.
  intros A K v l H. apply NoDup_nth_error. intros i j L E. rewrite !nth_error_map in E. rewrite map_length in L.
  destruct (nth_error l i) as [a|] eqn:Ha; [|apply nth_error_None in Ha; lia]. destruct (nth_error l j) as [b|] eqn:Hb; [|discriminate].
  cbn in E. injection E as E. exact (H i j a b Ha Hb E).
Qed.
Lemma nodup_filter_by : forall {A K} (v : A -> K) f l, (forall i j a b, nth_error l i = Some a -> nth_error l j = Some b -> f a = true -> f b = true -> v a = v b -> i = j) ->
  NoDup (map v (filter f l)).
Proof.
  intros A K v f l. induction l as [|a l IH]; intro H; [constructor|]. cbn [filter].
  assert (IH' : NoDup (map v (filter f l))).
  { apply IH. intros i j x y Hx Hy Fx Fy E. assert (S i = S j) by (apply (H (S i) (S j) x y); assumption). congruence. }
  destruct (f a) eqn:Fa; [|exact IH']. cbn [map]. constructor; [|exact IH']. intro X. apply in_map_iff in X as (b & E & Hb). apply filter_In in Hb as (Hb & Fb).
  destruct (In_nth_error _ _ Hb) as (j & Hj). assert (0 = S j) by (apply (H 0 (S j) a b); auto). discriminate.
Qed.
Lemma all_indexes_perm : Permutation all_indexes xs.
Proof.
  unfold all_indexes. rewrite (flat_names (fun n => column_indexes n ks xs)). fold names.
  assert (E1 : Permutation (flat_map (fun n => column_indexes n ks xs) names) (filter (fun x => in_column cols (listed (ix_columns x))) xs)).
  { rewrite (flat_map_ext _ (fun n => filter (fun x => beqb (listed (ix_columns x)) n) xs)) by apply column_indexes_eq.
    apply (flat_filter (fun x => listed (ix_columns x)) xs names NC). }
  set (fks := filter (fun k => is_fk k && rest_key cols k) ks).
  assert (E2 : flat_map (nest xs) (filter (rest_key cols) ks) = flat_map (fun n => filter (fun x => beqb (listed (ix_columns x)) n) xs) (map (fun k => listed (con_columns k)) fks)).
  { unfold fks. clear. induction ks as [|k l IH]; [reflexivity|]. cbn [filter]. destruct (rest_key cols k); cbn [flat_map]; rewrite ?andb_true_r, ?andb_false_r.
    - rewrite IH. unfold nest, hits. destruct (is_fk k); [reflexivity|]. reflexivity.
    - exact IH. }
  assert (N : NoDup (map (fun k => listed (con_columns k)) fks)).
  { apply nodup_filter_by. intros i j a b Ha Hb Fa Fb E. apply andb_true_iff in Fa as (Fa & _). apply andb_true_iff in Fb as (Fb & _).
    apply beqb_eq in Fa. apply beqb_eq in Fb. apply (KU i j a b Ha Hb); [congruence|right; exact E]. }
  assert (M : forall x, bmem (listed (ix_columns x)) (map (fun k => listed (con_columns k)) fks) = inside ks x && negb (in_column cols (listed (ix_columns x)))).
  { intro x. apply Bool.eq_iff_eq_true. rewrite bmem_In, andb_true_iff, negb_true_iff, in_map_iff. unfold inside. rewrite existsb_exists. split.
    - intros (k & E & Hk). apply filter_In in Hk as (Hk & F). apply andb_true_iff in F as (F1 & F2). apply beqb_eq in F1.
      unfold rest_key in F2. apply andb_true_iff in F2 as (_ & F2). apply negb_true_iff in F2. rewrite E in F2. split; [|exact F2].
      exists k. split; [exact Hk|]. apply keyed_iff. auto.
    - intros ((k & Hk & F) & C). apply keyed_iff in F as (F1 & F2). exists k. split; [exact F2|]. apply filter_In. split; [exact Hk|].
      unfold is_fk, rest_key. rewrite F1, beqb_refl, F2, C. cbn [andb negb]. rewrite andb_true_r. apply negb_true_iff.
      destruct (beqb_spec FOREIGN_KEY PRIMARY_KEY); [discriminate|reflexivity]. }
  eapply perm_trans; [apply Permutation_app; [exact E1|]; rewrite E2; apply Permutation_app_tail; apply (flat_filter (fun x => listed (ix_columns x)) xs _ N)|].
  rewrite (filter_ext _ _ M). eapply perm_trans; [|apply (perm_split (fun x => in_column cols (listed (ix_columns x))))]. apply Permutation_app_head.
  eapply perm_trans; [apply perm_or; unfold rest_index; intros x _ A C; destruct (inside ks x); discriminate|].
  rewrite (filter_ext _ (fun x => negb (in_column cols (listed (ix_columns x))))); [apply Permutation_refl|].
  intro x. unfold rest_index. destruct (inside ks x), (in_column cols (listed (ix_columns x))); reflexivity.
Qed.
End Table.

(** ** The fields that are not columns *)
Section Fields.
Variables (flt : bytes -> bool) (d : dialect) (cur : bytes) (ks : list constraint) (xs : list index).
Hypothesis HK : Forall (key_sound d cur) ks.
Hypothesis HX : Forall (index_whole d) xs.

Lemma nested_whole : forall k, listable (con_columns k) -> Forall (fun x => index_reads d x /\ ix_columns x = con_columns k) (nest xs k).
Proof.
  intros k L. unfold nest, hits. destruct (is_fk k); [|constructor]. apply Forall_forall. intros x Hx. apply filter_In in Hx as (I & F).
  apply beqb_eq in F. rewrite Forall_forall in HX. destruct (HX x I) as (R & Lx). split; [exact R|]. apply listed_inj; assumption.
Qed.
Lemma table_adds : forall p m r ks' xs', table_modifier d (p, []) m = bindr r (fun p => Ok (p, [])) -> adds p r ks' xs' ->
  adds p (parse_table d p [m]) ks' xs'.
Proof.
  intros p m r ks' xs' E (p' & -> & H). unfold parse_table. cbn [foldr]. rewrite E. cbn [bindr]. exists p'. split; [reflexivity|exact H].
Qed.
Lemma key_adds : forall p k, key_sound d cur k -> pinv (pa_cache p) (pa_table p) ->
  ~ In (key_name d (pa_table p) k) (map con_name (tb_constraints (pa_table p))) ->
  NoDup (map ix_name (tb_indexes (pa_table p)) ++ map (index_name (pa_table p)) (nest xs k)) ->
  adds p (parse_table d p [parsed (key_full cur k (nest xs k))]) [key_of d cur (pa_table p) k] (map (index_of d (pa_table p)) (nest xs k)).
Proof.
  intros p k (L & H) I N M. pose proof L as (L1 & L2 & L3). destruct H as [(Ty & Df)|F].
  - assert (E : nest xs k = []).
    { unfold nest, hits, is_fk. destruct Ty as [-> | ->]; reflexivity. }
    rewrite E. cbn [map].
    set (m := parsed (Mod [] (if beqb (con_type k) UNIQUE then B"unique" else B"primarykey") [] (listed (con_columns k)) (deferral k))).
    assert (Em : parsed (key_full cur k []) = m).
    { unfold m, key_full, value_modifier, is_fk, kind_word. destruct Ty as [-> | ->]; reflexivity. }
    rewrite Em. apply (table_adds p m (parse_key d [] p m)); [unfold m; destruct Ty as [-> | ->]; reflexivity|].
    unfold m. apply parse_key_reads; auto.
  - pose proof F as (Ty & _). set (m := parsed (key_full cur k (nest xs k))).
    assert (Em : key_full cur k (nest xs k) = Mod [] (B"foreignkey") [] (listed (con_columns k)) (raw_modifier "references" (references_value cur k) :: fk_subs k (nest xs k))).
    { unfold key_full, value_modifier, is_fk, kind_word. rewrite Ty. reflexivity. }
    apply (table_adds p m (parse_foreign_key d p m)); [unfold m; rewrite Em; reflexivity|].
    unfold m. rewrite Em. apply parse_foreign_key_reads; auto. apply nested_whole. exact L.
Qed.
Lemma index_adds : forall p x, index_whole d x -> pinv (pa_cache p) (pa_table p) ->
  ~ In (index_name (pa_table p) x) (map ix_name (tb_indexes (pa_table p))) ->
  adds p (parse_table d p [parsed (index_modifier x)]) [] [index_of d (pa_table p) x].
Proof.
  intros p x ((R1 & R2 & R3) & (L1 & L2 & L3)) I N. set (m := parsed (index_modifier x)).
  apply (table_adds p m (parse_index d [] p m)); [reflexivity|]. unfold m.
  change (index_modifier x) with (Mod [] (B"index") [] (listed (ix_columns x)) (index_subs x)). apply parse_index_reads; auto.
Qed.

Definition with_virtual (t : table) (v : bool) : table :=
  Table (tb_schema t) (tb_name t) (tb_sql t) v (tb_columns t) (tb_constraints t) (tb_indexes t) (tb_ignore t).

(** *** Several fields in a row *)
Definition reach (p : parser) (fs : list field) (t : table) (ex : list key) : Prop :=
  exists p', foldr (parse_field flt d) p fs = Ok p' /\ pa_table p' = t /\ pinv (pa_cache p') (pa_table p')
    /\ pa_explicit p' = ex ++ pa_explicit p /\ pa_reports p' = pa_reports p.
Lemma reach_nil : forall p, pinv (pa_cache p) (pa_table p) -> reach p [] (pa_table p) [].
Proof. intros p I. exists p. repeat split; auto; apply I. Qed.
Lemma reach_app : forall p a b t t' ex ex', reach p a t ex ->
  (forall p1, pa_table p1 = t -> pinv (pa_cache p1) (pa_table p1) -> reach p1 b t' ex') -> reach p (a ++ b) t' (ex' ++ ex).
Proof.
  intros p a b t t' ex ex' (p1 & E1 & T1 & I1 & X1 & R1) H. destruct (H p1 T1 I1) as (p2 & E2 & T2 & I2 & X2 & R2).
  exists p2. rewrite foldr_app, E1. cbn [bindr]. split; [exact E2|]. split; [exact T2|]. split; [exact I2|].
  rewrite X2, X1, R2, R1, app_assoc. auto.
Qed.
Lemma reach_one : forall p f p' t ex, pinv (pa_cache p) (pa_table p) -> parse_field flt d p f = Ok p' -> pa_table p' = t ->
  pa_explicit p' = ex ++ pa_explicit p -> pa_reports p' = pa_reports p -> reach p [f] t ex.
Proof.
  intros p f p' t ex I E T X R. exists p'. cbn [foldr]. rewrite E. cbn [bindr]. split; [reflexivity|]. split; [exact T|]. split; [|auto].
  pose proof (parse_field_step flt d p f I) as O. rewrite E in O. cbn [outcome] in O. apply O.
Qed.
Lemma reach_adds : forall p f m ks' xs', pinv (pa_cache p) (pa_table p) -> parse_field flt d p f = parse_table d p [m] ->
  adds p (parse_table d p [m]) ks' xs' -> reach p [f] (more (pa_table p) ks' xs') [].
Proof.
  intros p f m ks' xs' I E (p' & E' & T & K1 & K2). eapply reach_one; [exact I|rewrite E; exact E'|exact T|exact K1|exact K2].
Qed.

Lemma reach_cons : forall p f fs p1 t ex ex0, parse_field flt d p f = Ok p1 -> reach p1 fs t ex ->
  pa_explicit p1 = ex0 ++ pa_explicit p -> pa_reports p1 = pa_reports p -> reach p (f :: fs) t (ex ++ ex0).
Proof.
  intros p f fs p1 t ex ex0 E (p2 & E2 & T2 & I2 & X2 & R2) X R. exists p2. cbn [foldr]. rewrite E. cbn [bindr].
  split; [exact E2|]. split; [exact T2|]. split; [exact I2|]. rewrite X2, X, R2, R, app_assoc. auto.
Qed.

Lemma loose_keys : forall l p, Forall (key_sound d cur) l -> pinv (pa_cache p) (pa_table p) ->
  NoDup (map con_name (tb_constraints (pa_table p)) ++ map (key_name d (pa_table p)) l) ->
  NoDup (map ix_name (tb_indexes (pa_table p)) ++ map (index_name (pa_table p)) (flat_map (nest xs) l)) ->
  reach p (map read_back (map (fun k => loose (key_full cur k (nest xs k))) l))
    (more (pa_table p) (map (key_of d cur (pa_table p)) l) (map (index_of d (pa_table p)) (flat_map (nest xs) l))) [].
Proof.
  induction l as [|k l IH]; intros p H I N M.
  - cbn [map flat_map]. rewrite more_nil. apply reach_nil. exact I.
  - inversion H as [|? ? Hk H']; subst. cbn [map flat_map] in *. rewrite map_app in M.
    set (f := read_back (loose (key_full cur k (nest xs k)))).
    change (f :: map read_back (map (fun k => loose (key_full cur k (nest xs k))) l)) with ([f] ++ map read_back (map (fun k => loose (key_full cur k (nest xs k))) l)).
    change (@nil key) with ((@nil key) ++ []). eapply reach_app.
    + eapply reach_adds; [exact I|reflexivity|]. apply key_adds; auto.
      * intro X. apply NoDup_remove_2 in N. apply N. apply in_app_iff. left. exact X.
      * eapply NoDup_part. exact M.
    + intros p1 T1 I1.
      assert (E : more (pa_table p) (key_of d cur (pa_table p) k :: map (key_of d cur (pa_table p)) l) (map (index_of d (pa_table p)) (nest xs k ++ flat_map (nest xs) l))
         = more (pa_table p1) (map (key_of d cur (pa_table p1)) l) (map (index_of d (pa_table p1)) (flat_map (nest xs) l))).
      { rewrite T1, more_more, map_app. reflexivity. }
      rewrite E. apply IH; auto.
      * rewrite T1. cbn [tb_constraints more]. rewrite map_app. cbn [map]. rewrite <- app_assoc. exact N.
      * rewrite T1. cbn [tb_indexes more]. rewrite map_app, map_map, <- app_assoc. exact M.
Qed.
Lemma loose_indexes : forall l p, Forall (index_whole d) l -> pinv (pa_cache p) (pa_table p) ->
  NoDup (map ix_name (tb_indexes (pa_table p)) ++ map (index_name (pa_table p)) l) ->
  reach p (map read_back (map (fun x => loose (index_modifier x)) l)) (more (pa_table p) [] (map (index_of d (pa_table p)) l)) [].
Proof.
  induction l as [|x l IH]; intros p H I N.
  - cbn [map]. rewrite more_nil. apply reach_nil. exact I.
  - inversion H as [|? ? Hx H']; subst. cbn [map] in *. set (f := read_back (loose (index_modifier x))).
    change (f :: map read_back (map (fun x => loose (index_modifier x)) l)) with ([f] ++ map read_back (map (fun x => loose (index_modifier x)) l)).
    change (@nil key) with ((@nil key) ++ []). eapply reach_app.
    + eapply reach_adds; [exact I|reflexivity|]. apply index_adds; auto.
      intro X. apply NoDup_remove_2 in N. apply N. apply in_app_iff. left. exact X.
    + intros p1 T1 I1.
      assert (E : more (pa_table p) [] (index_of d (pa_table p) x :: map (index_of d (pa_table p)) l) = more (pa_table p1) [] (map (index_of d (pa_table p1)) l)).
      { rewrite T1, more_more. reflexivity. }
      rewrite E. apply IH; auto. rewrite T1. cbn [tb_indexes more]. rewrite map_app. cbn [map]. rewrite <- app_assoc. exact N.
Qed.

(** *** Columns *)
Definition sole_in (c : column) : bool := negb (none (own ks PRIMARY_KEY (col_name c))).
Definition explicit_of (t : table) (r : list (column * bool)) : list key :=
  flat_map (fun a : column * bool => if snd a then [[tb_schema t; tb_name t; col_name (fst a)]] else []) r.
Lemma all_columns : forall collation cs fs p,
  Forall2 (fun c f => exists ty, get_field_type d c = Ok ty /\ f = field_of cur ks xs d collation ty c) cs fs ->
  Forall (fun c => go_word (col_name c) /\ column_sound flt d (sole_in c) c) cs ->
  pinv (pa_cache p) (pa_table p) -> NoDup (map col_name (tb_columns (pa_table p)) ++ map col_name cs) ->
  NoDup (map con_name (tb_constraints (pa_table p)) ++ map (key_name d (pa_table p)) (flat_map (fun c => column_keys (col_name c) ks) cs)) ->
  NoDup (map ix_name (tb_indexes (pa_table p)) ++ map (index_name (pa_table p)) (flat_map (fun c => column_indexes (col_name c) ks xs) cs)) ->
  exists r, Forall2 (fun c a => column_read d collation (sole_in c) c (fst a) (snd a)) cs r
    /\ reach p (map read_back fs)
         (more (with_columns (pa_table p) (tb_columns (pa_table p) ++ map fst r))
            (map (key_of d cur (pa_table p)) (flat_map (fun c => column_keys (col_name c) ks) cs))
            (map (index_of d (pa_table p)) (flat_map (fun c => column_indexes (col_name c) ks xs) cs)))
         (rev (explicit_of (pa_table p) r)).
Proof.
  intros collation cs fs p F. revert p. induction F as [|c f cs fs (ty & G & Ef) F IH]; intros p H I N NK NX.
  - exists []. split; [constructor|]. cbn [map flat_map rev explicit_of]. rewrite app_nil_r.
    replace (more (with_columns (pa_table p) (tb_columns (pa_table p))) [] []) with (pa_table p); [apply reach_nil; exact I|].
    rewrite more_nil. destruct (pa_table p); reflexivity.
  - inversion H as [|? ? (W & S) H']; subst. cbn [map flat_map] in *. rewrite map_app in NK, NX.
    destruct (field_reads flt d cur ks xs p c ty collation I W) as (p1 & C & e & E1 & Cr & T1 & I1 & X1 & R1); auto.
    { intro X. apply NoDup_remove_2 in N. apply N. apply in_app_iff. left. exact X. }
    { eapply NoDup_part. exact NK. }
    { eapply NoDup_part. exact NX. }
    destruct (IH p1) as (r & Hr & Re); auto.
    { rewrite T1. cbn [tb_columns more with_columns]. rewrite map_app. cbn [map]. rewrite (cr_name _ _ _ _ _ _ Cr), <- app_assoc. exact N. }
    { rewrite T1. cbn [tb_constraints more with_columns]. rewrite map_app, map_map, <- app_assoc. exact NK. }
    { rewrite T1. cbn [tb_indexes more with_columns]. rewrite map_app, map_map, <- app_assoc. exact NX. }
    exists ((C, e) :: r). split; [constructor; assumption|]. cbn [map flat_map fst].
    assert (Ex : rev (explicit_of (pa_table p) ((C, e) :: r)) = rev (explicit_of (pa_table p1) r) ++ (if e then [[tb_schema (pa_table p); tb_name (pa_table p); col_name c]] else [])).
    { unfold explicit_of. cbn [flat_map fst snd]. rewrite rev_app_distr, T1, (cr_name _ _ _ _ _ _ Cr). destruct e; reflexivity. }
    rewrite Ex. eapply reach_cons; [exact E1| |exact X1|exact R1].
    match goal with |- reach _ _ ?t _ => match type of Re with reach _ _ ?t' _ => assert (Et : t = t') end end; [|rewrite Et; exact Re].
    rewrite T1, !map_app. cbn [tb_columns more with_columns tb_constraints tb_indexes tb_schema tb_name tb_sql tb_virtual tb_ignore]. unfold more, with_columns. cbn. rewrite <- !app_assoc. reflexivity.
Qed.

(** *** The whole struct *)
Hypothesis KT : forall k, In k ks -> key_type (con_type k).
Hypothesis KU : forall i j a b, nth_error ks i = Some a -> nth_error ks j = Some b ->
  con_type a = con_type b -> con_type a = PRIMARY_KEY \/ listed (con_columns a) = listed (con_columns b) -> i = j.
Hypothesis XU : forall i j a b, nth_error xs i = Some a -> nth_error xs j = Some b ->
  listed (ix_columns a) = listed (ix_columns b) -> i = j.

Lemma table_key_one : forall cols k l, filter (table_key cols) ks = k :: l -> l = [] /\ In k ks /\ con_type k = PRIMARY_KEY.
Proof.
  intros cols k l E. assert (Hk : In k (filter (table_key cols) ks)) by (rewrite E; left; reflexivity). apply filter_In in Hk as (Hk & Fk).
  assert (P : forall a, table_key cols a = true -> con_type a = PRIMARY_KEY) by (intros a F; apply andb_true_iff in F as (F & _); apply beqb_eq; exact F).
  destruct (In_nth_error _ _ Hk) as (i & Hi). assert (S : single (table_key cols) ks).
  { intros a b x y Hx Hy Fx Fy. apply P in Fx. apply P in Fy. apply (KU a b x y Hx Hy); [congruence|left; exact Fx]. }
  rewrite (single_filter _ _ i k S Hi Fk) in E. injection E as <-. auto.
Qed.
Lemma first_reads : forall t p tag, pinv (pa_cache p) (pa_table p) -> tb_virtual (pa_table p) = false ->
  NoDup (map con_name (tb_constraints (pa_table p)) ++ map (key_name d (pa_table p)) (filter (table_key (tb_columns t)) ks)) ->
  NoDup (map ix_name (tb_indexes (pa_table p))) ->
  (d = SQLite -> is_virtual t = true -> filter (table_key (tb_columns t)) ks = []) ->
  reach p [read_back (Field [] (B"sq.TableStruct") tag (first_mods cur ks xs d t))]
    (more (with_virtual (pa_table p) (dialect_eqb d SQLite && is_virtual t)) (map (key_of d cur (pa_table p)) (filter (table_key (tb_columns t)) ks)) []) [].
Proof.
  intros t p tag I Vf N M V. unfold first_mods.
  assert (Ev : with_virtual (pa_table p) false = pa_table p) by (revert Vf; destruct (pa_table p); cbn; intros ->; reflexivity).
  destruct (filter (table_key (tb_columns t)) ks) as [|k l] eqn:E.
  - destruct (dialect_eqb d SQLite && is_virtual t) eqn:Q.
    + apply andb_true_iff in Q as (Q & _). assert (D : d = SQLite) by (destruct d; try discriminate Q; reflexivity).
      eapply reach_one; [exact I|unfold parse_field; cbn [f_name f_type f_mods read_back]; rewrite D; reflexivity| |reflexivity|reflexivity].
      rewrite more_nil. reflexivity.
    + eapply reach_one; [exact I|reflexivity| |reflexivity|reflexivity]. cbn [map]. rewrite more_nil, Ev. reflexivity.
  - destruct (table_key_one _ _ _ E) as (-> & Hk & Ty).
    assert (Q : dialect_eqb d SQLite && is_virtual t = false).
    { destruct (dialect_eqb d SQLite && is_virtual t) eqn:Q; [|reflexivity]. apply andb_true_iff in Q as (Q & Iv).
      assert (D : d = SQLite) by (destruct d; try discriminate Q; reflexivity). discriminate (V D Iv). }
    rewrite Q, Ev. assert (En : nest xs k = []) by (unfold nest, hits, is_fk; rewrite Ty; reflexivity).
    eapply reach_adds; [exact I|reflexivity|]. replace (@nil index) with (map (index_of d (pa_table p)) (nest xs k)) by (rewrite En; reflexivity).
    cbn [map] in *. apply key_adds; auto.
    + rewrite Forall_forall in HK. apply HK. exact Hk.
    + intro X. apply NoDup_remove_2 in N. apply N. rewrite app_nil_r. exact X.
    + rewrite En. cbn [map]. rewrite app_nil_r. exact M.
Qed.
Lemma struct_fields_read : forall t collation tag fs p, let T := pa_table p in
  Forall2 (fun c f => exists ty, get_field_type d c = Ok ty /\ f = field_of cur ks xs d collation ty c) (filter shown (tb_columns t)) fs ->
  Forall (fun c => go_word (col_name c) /\ column_sound flt d (sole_in c) c) (filter shown (tb_columns t)) ->
  NoDup (map col_name (filter shown (tb_columns t))) ->
  NoDup (map (key_name d T) ks) -> NoDup (map (index_name T) xs) ->
  (d = SQLite -> is_virtual t = true -> filter (table_key (tb_columns t)) ks = []) ->
  pinv (pa_cache p) T -> tb_virtual T = false -> tb_columns T = [] -> tb_constraints T = [] -> tb_indexes T = [] ->
  exists r, Forall2 (fun c a => column_read d collation (sole_in c) c (fst a) (snd a)) (filter shown (tb_columns t)) r
    /\ reach p (map read_back (Field [] (B"sq.TableStruct") tag (first_mods cur ks xs d t)
          :: fs ++ map (fun k => loose (key_full cur k (nest xs k))) (filter (rest_key (tb_columns t)) ks)
          ++ map (fun x => loose (index_modifier x)) (filter (rest_index ks (tb_columns t)) xs)))
         (more (with_columns (with_virtual T (dialect_eqb d SQLite && is_virtual t)) (map fst r)) (map (key_of d cur T) (all_keys ks (tb_columns t)))
            (map (index_of d T) (all_indexes ks xs (tb_columns t))))
         (rev (explicit_of T r)).
Proof.
  intros t collation tag fs p T F Hc NC NK NX V I T1 T2 T3 T4. set (cols := tb_columns t) in *. set (v := dialect_eqb d SQLite && is_virtual t).
  assert (NK' : NoDup (map (key_name d T) (all_keys ks cols))) by (eapply Permutation_NoDup; [symmetry; apply Permutation_map; apply all_keys_perm; assumption|exact NK]).
  assert (NX' : NoDup (map (index_name T) (all_indexes ks xs cols))) by (eapply Permutation_NoDup; [symmetry; apply Permutation_map; apply all_indexes_perm; assumption|exact NX]).
  unfold all_keys, all_indexes in NK', NX'. rewrite !map_app in NK', NX'.
  destruct (first_reads t p tag I T1) as (p1 & E1 & P1 & I1 & X1 & R1).
  { fold T. rewrite T3. cbn [map app]. fold cols. pose proof (NoDup_part [] _ _ NK') as Q. exact Q. }
  { fold T. rewrite T4. constructor. }
  { exact V. }
  cbn [foldr] in E1. destruct (parse_field flt d p _) as [p1'| |] eqn:E1'; cbn [bindr] in E1; try discriminate. injection E1 as ->.
  fold cols v T in P1.
  destruct (all_columns collation (filter shown cols) fs p1 F Hc I1) as (r & Hr & Re).
  { rewrite P1. cbn [tb_columns more with_virtual]. rewrite T2. exact NC. }
  { rewrite P1. cbn [tb_constraints more with_virtual]. rewrite T3. cbn [app]. rewrite map_map. cbn [con_name key_of]. eapply NoDup_part. exact NK'. }
  { rewrite P1. cbn [tb_indexes more with_virtual]. rewrite T4. cbn [app map]. pose proof (NoDup_part [] _ _ NX') as Q. exact Q. }
  exists r. split; [exact Hr|]. cbn [map]. rewrite !map_app.
  replace (rev (explicit_of T r)) with (rev (explicit_of T r) ++ []) by apply app_nil_r.
  eapply reach_cons; [exact E1'| |exact X1|exact R1].
  change (rev (explicit_of T r)) with ([] ++ rev (explicit_of T r)). eapply reach_app.
  - replace (explicit_of T r) with (explicit_of (pa_table p1) r); [exact Re|]. rewrite P1. reflexivity.
  - intros p2 P2 I2. rewrite P1 in P2. change (@nil key) with ((@nil key) ++ []). eapply reach_app.
    + apply (loose_keys (filter (rest_key cols) ks) p2).
      * apply Forall_forall. intros k Hk. apply filter_In in Hk as (Hk & _). rewrite Forall_forall in HK. apply HK. exact Hk.
      * exact I2.
      * rewrite P2. cbn [tb_constraints more with_columns with_virtual]. rewrite T3. cbn [app]. rewrite map_app, !map_map. cbn [con_name key_of].
        rewrite <- app_assoc. exact NK'.
      * rewrite P2. cbn [tb_indexes more with_columns with_virtual]. rewrite T4. cbn [app]. rewrite !map_map. cbn [ix_name index_of].
        eapply NoDup_part. exact NX'.
    + intros p3 P3 I3.
      match goal with |- reach _ _ ?t _ => replace t with (more (pa_table p3) [] (map (index_of d (pa_table p3)) (filter (rest_index ks cols) xs))) end.
      * apply loose_indexes.
        -- apply Forall_forall. intros x Hx. apply filter_In in Hx as (Hx & _). rewrite Forall_forall in HX. apply HX. exact Hx.
        -- exact I3.
        -- rewrite P3, P2. cbn [tb_indexes more with_columns with_virtual]. rewrite T4. cbn [app]. rewrite !map_app, !map_map. cbn [ix_name index_of].
           rewrite <- app_assoc. exact NX'.
      * rewrite P3, P2, !more_more. unfold all_keys, all_indexes. rewrite !map_app. unfold more, with_columns, with_virtual. cbn. rewrite T2, T3, T4. cbn [app].
        rewrite !app_nil_r. rewrite <- ?app_assoc. reflexivity.
Qed.
End Fields.
