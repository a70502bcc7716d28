(** Reading a database into a catalog that has other tables. *)
From Verif Require Import GoStr GoStrFacts ModelCatalog ModelDdl ModelCache SpecCache CacheFacts ModelIntrospect
  IntrospectShape IntrospectFacts SpecArgs SpecLive IntrospectRead IntrospectDb ModelCombine SpecCombine.

Definition flagged (tb : table) : table :=
  with_columns tb (map (fun y => fold_left (fun y x => key_flag x y) (tb_constraints tb) y) (tb_columns tb)).
(** What a catalog that was read satisfies. *)
Definition kept_table (s : bytes) (tb : table) : Prop :=
  distinct_table s tb /\ (forall y, In y (tb_columns tb) -> col_ignore y = false)
  /\ (forall x, In x (tb_constraints tb) -> con_type x = PRIMARY_KEY \/ con_type x = UNIQUE \/ con_type x = FOREIGN_KEY ->
        incl (con_columns x) (map col_name (tb_columns tb)))
  /\ (forall x, In x (tb_constraints tb) -> con_type x = FOREIGN_KEY -> con_refcolumns x <> [])
  /\ flagged tb = tb.
Definition kept (cat : list schema) : Prop :=
  NoDup (map sc_name cat)
  /\ Forall (fun sc => sc_ignore sc = false /\ sc_tables sc <> [] /\ NoDup (map tb_name (sc_tables sc))
       /\ Forall (kept_table (sc_name sc)) (sc_tables sc)) cat.
Lemma kept_distinct cat : kept cat -> distinct_names cat.
Proof.
  intros (N & F). split; [exact N|]. eapply Forall_impl; [|exact F]. intros sc (A & _ & B & C). split; [exact A|]. split; [exact B|].
  eapply Forall_impl; [|exact C]. intros t (T & _). exact T.
Qed.

(** ** Catalogs as databases *)
Definition all_of (s : bytes) (x : live_table) : bool := true.
Definition as_live (t : table) : live_table := LiveTable t true false.
Definition db_of (cat : list schema) : database := map (fun sc => (sc_name sc, map as_live (sc_tables sc))) cat.
Definition extend (D : database) (x : live_table) : database :=
  put_in (fun s : live_schema => beqb (fst s) (tb_schema (lv_table x))) (tb_schema (lv_table x), [])
    (fun s => (fst s, snd s ++ [x])) D.
Definition lies (D : database) (n : bytes) (x : live_table) : Prop := exists s, In s D /\ fst s = n /\ In x (snd s).

Lemma shape_all D g : (forall s, In s D -> snd s <> []) -> shape D all_of g = map (fun s => Schema (fst s) (map g (snd s)) false) D.
Proof.
  intro N. unfold shape. induction D as [|s D IH]; [reflexivity|]. cbn [flat_map map]. rewrite IH by (intros; apply N; right; assumption).
  unfold schema_with, all_of. rewrite filter_all. destruct (snd s) eqn:E; [exfalso; apply (N s); [left; reflexivity|exact E]|reflexivity].
Qed.
Lemma in_put_in {A} (is : A -> bool) new f l a : In a (put_in is new f l) ->
  (In a l /\ is a = false) \/ (exists b, In b l /\ is b = true /\ a = f b) \/ (a = f new /\ existsb is l = false).
Proof.
  unfold put_in. destruct (existsb is l) eqn:E; intro H.
  - apply in_map_iff in H as (b & <- & Hb). destruct (is b) eqn:Q; [right; left; eauto|left; auto].
  - apply in_app_or in H as [H|[<-|[]]]; [|right; right; auto]. left. split; [exact H|]. destruct (is a) eqn:Q; [|reflexivity].
    assert (existsb is l = true) by (apply existsb_exists; eauto). congruence.
Qed.
Lemma put_in_map {A C} (h : A -> C) is new f is' new' f' l :
  (forall a, In a l -> is' (h a) = is a) -> (forall a, In a l -> is a = true -> h (f a) = f' (h a)) -> h (f new) = f' new' ->
  map h (put_in is new f l) = put_in is' new' f' (map h l).
Proof.
  intros H1 H2 H3. unfold put_in.
  assert (E : existsb is' (map h l) = existsb is l).
  { clear H2 H3. induction l as [|a l IH]; [reflexivity|]. cbn [map existsb]. rewrite H1 by (left; reflexivity). rewrite IH; [reflexivity|].
    intros b Hb. apply H1. right. exact Hb. }
  rewrite E. destruct (existsb is l) eqn:Q.
  - rewrite !map_map. apply map_ext_in. intros a Ha. rewrite H1 by exact Ha. destruct (is a) eqn:I; [auto|reflexivity].
  - rewrite map_app. cbn [map]. rewrite H3. reflexivity.
Qed.
Lemma extend_names D x : map fst (extend D x) = map fst D \/ (map fst (extend D x) = map fst D ++ [tb_schema (lv_table x)] /\ ~ In (tb_schema (lv_table x)) (map fst D)).
Proof.
  unfold extend, put_in. destruct (existsb _ D) eqn:E.
  - left. rewrite map_map. apply map_ext. intro s. destruct (beqb _ _); reflexivity.
  - right. rewrite map_app. split; [reflexivity|]. intro Z. apply in_map_iff in Z as (s & Z1 & Z2).
    assert (Q : existsb (fun s : live_schema => beqb (fst s) (tb_schema (lv_table x))) D = true).
    { apply existsb_exists. exists s. split; [exact Z2|]. apply beqb_eq. exact Z1. }
    rewrite Q in E. discriminate.
Qed.
Lemma lies_extend D x n y : lies (extend D x) n y <-> lies D n y \/ (n = tb_schema (lv_table x) /\ y = x).
Proof.
  split.
  - intros (s & H & E & I). apply in_put_in in H as [(H & _)|[(b & Hb & Q & ->)|(-> & _)]].
    + left. exists s. auto.
    + cbn [fst snd] in *. apply beqb_eq in Q. apply in_app_or in I as [I|[<-|[]]]; [left; exists b; auto|right; split; congruence].
    + cbn [fst snd app] in *. destruct I as [<-|[]]. auto.
  - intros [(s & H & E & I)|(E & ->)].
    + unfold extend, put_in. destruct (existsb _ D) eqn:Q.
      * exists (if beqb (fst s) (tb_schema (lv_table x)) then (fst s, snd s ++ [x]) else s). split; [apply in_map_iff; eauto|].
        destruct (beqb (fst s) _); cbn [fst snd]; [split; [exact E|apply in_or_app; auto]|auto].
      * exists s. split; [apply in_or_app; auto|auto].
    + unfold extend, put_in. destruct (existsb _ D) eqn:Q.
      * apply existsb_exists in Q as (b & Hb & Q). exists (fst b, snd b ++ [x]). split; [apply in_map_iff; exists b; split; [|exact Hb]; rewrite Q; reflexivity|].
        cbn [fst snd]. apply beqb_eq in Q. split; [congruence|apply in_or_app; right; left; reflexivity].
      * eexists. split; [apply in_or_app; right; left; reflexivity|]. cbn [fst snd app]. split; [congruence|left; reflexivity].
Qed.
Lemma placed_extend D x : placed D -> (forall y, lies D (tb_schema (lv_table x)) y -> tb_name (lv_table y) <> tb_name (lv_table x)) -> placed (extend D x).
Proof.
  intros (P1 & P2) N. split.
  - destruct (extend_names D x) as [->|(-> & Q)]; [exact P1|]. apply NoDup_join; [exact P1|repeat constructor; intros []|]. intros a A1 [<-|[]]. contradiction.
  - rewrite Forall_forall in *. intros s Hs. apply in_put_in in Hs as [(H & _)|[(b & Hb & Q & ->)|(-> & _)]]; [auto| |].
    + destruct (P2 b Hb) as (B1 & B2). cbn [fst snd]. apply beqb_eq in Q. rewrite map_app. split.
      * apply NoDup_join; [exact B1|repeat constructor; intros []|]. intros a A1 [<-|[]]. apply in_map_iff in A1 as (y & Y1 & Y2).
        apply (N y); [exists b; auto|exact Y1].
      * apply Forall_app. split; [exact B2|]. constructor; [symmetry; exact Q|constructor].
    + cbn [fst snd app map]. split; [repeat constructor; intros []|]. constructor; [reflexivity|constructor].
Qed.
Lemma extend_nonempty D x : (forall s, In s D -> snd s <> []) -> forall s, In s (extend D x) -> snd s <> [].
Proof.
  intros N s Hs. apply in_put_in in Hs as [(H & _)|[(b & Hb & Q & ->)|(-> & _)]]; [auto| |]; cbn [snd]; intro E; destruct (app_cons_not_nil _ _ _ (eq_sym E)).
Qed.

(** ** Adding the tables *)
Section Tables.
Variable g : live_table -> table.
Hypothesis K : keeps g.
Lemma add_one D st x : placed D -> (forall s, In s D -> snd s <> []) -> good_state D all_of g st ->
  (forall y, lies D (tb_schema (lv_table x)) y -> tb_name (lv_table y) <> tb_name (lv_table x)) -> g x = blank_live x ->
  exists st', add_table st (blank_live x) = Ok st' /\ good_state (extend D x) all_of g st'.
Proof.
  intros P N (I & E) F B. unfold add_table.
  destruct (step_ok false st (tb_schema (blank_live x)) (CSetTable (blank_live x)) I) as (st1 & R & I1 & W).
  { cbn [careful blank_live blank_table tb_columns tb_constraints tb_indexes tb_ignore tb_name tb_schema]. repeat (split; [reflexivity|]).
    intros sc Hsc Nsc Q. rewrite E, shape_all in Hsc by exact N. apply in_map_iff in Hsc as (s & <- & Hs). cbn [sc_name sc_tables] in *.
    rewrite map_map in Q. apply in_map_iff in Q as (y & Q1 & Q2). destruct (K y) as (_ & K2 & _). rewrite K2 in Q1.
    apply (F y); [exists s; auto|exact Q1]. }
  { discriminate. }
  exists st1. split; [exact R|]. split; [exact I1|]. rewrite W, E, shape_all by exact N.
  rewrite shape_all by (apply extend_nonempty; exact N). unfold extend, after. cbn [fst snd]. symmetry. apply put_in_map.
  - intros s Hs. unfold live. cbn [sc_name sc_ignore]. rewrite andb_true_r. reflexivity.
  - intros s Hs Q. cbn [fst snd]. unfold after_schema, with_tables. cbn [table_of sc_name sc_tables sc_ignore]. rewrite map_app. cbn [map]. rewrite B.
    apply beqb_eq in Q. rewrite Q. reflexivity.
  - cbn [fst snd app map]. unfold after_schema, with_tables. cbn. rewrite B. reflexivity.
Qed.
Lemma add_tables L : forall D st, placed D -> (forall s, In s D -> snd s <> []) -> good_state D all_of g st ->
  NoDup (map (fun x => (tb_schema (lv_table x), tb_name (lv_table x))) L) ->
  (forall x y, In x L -> lies D (tb_schema (lv_table x)) y -> tb_name (lv_table y) <> tb_name (lv_table x)) ->
  (forall x, In x L -> g x = blank_live x) ->
  exists st', each_row add_table st (map blank_live L) = Ok st' /\ good_state (fold_left extend L D) all_of g st'
    /\ placed (fold_left extend L D) /\ (forall s, In s (fold_left extend L D) -> snd s <> []).
Proof.
  induction L as [|x L IH]; intros D st P N G ND F B; cbn [map each_row fold_left].
  - exists st. auto.
  - destruct (add_one D st x P N G) as (st1 & R & G1); [intros y Hy; apply F; [left; reflexivity|exact Hy]|apply B; left; reflexivity|].
    rewrite R. cbn [bindr]. inversion ND as [|? ? ND1 ND2]; subst. apply IH; auto.
    + apply placed_extend; [exact P|]. intros y Hy. apply F; [left; reflexivity|exact Hy].
    + apply extend_nonempty. exact N.
    + intros z y Hz Hy. apply lies_extend in Hy as [Hy|(E & ->)]; [apply F; [right; exact Hz|exact Hy]|].
      intro Q. apply ND1. apply in_map_iff. exists z. split; [congruence|exact Hz].
    + intros z Hz. apply B. right. exact Hz.
Qed.
End Tables.
Lemma lies_fold L : forall D n y, lies (fold_left extend L D) n y <-> lies D n y \/ (In y L /\ n = tb_schema (lv_table y)).
Proof.
  induction L as [|x L IH]; intros D n y; cbn [fold_left]; [cbn; tauto|]. rewrite IH, lies_extend. cbn [In]. split.
  - intros [[H|(H1 & H2)]|(H1 & H2)]; [auto|subst; auto|auto].
  - intros [H|([<-|H1] & H2)]; auto.
Qed.

(** ** Reading *)
Lemma fold_rows_at {A} (ks kt : A -> bytes) op L g h x : g x = h x -> fold_rows ks kt op L g x = fold_rows ks kt op L h x.
Proof. intro E. unfold fold_rows. rewrite E. reflexivity. Qed.
Lemma choice_fine d f db : d <> Other -> clear_choice d f db -> match d with Other => true | _ => bad_filter d f end = false.
Proof.
  intros O CF. unfold clear_choice in CF.
  destruct d; try congruence; unfold bad_filter; try reflexivity; destruct CF as (C1 & C2); rewrite !bad_list_clear by assumption; reflexivity.
Qed.
Section Read.
Variable d : dialect.
Variable f : choice.
Variable db : database.
Hypothesis OK : database_ok d db.
Hypothesis CL : clear d f db.
Variable cat : list schema.
Hypothesis CK : kept cat.
Definition old (x : live_table) : bool :=
  existsb (fun sc => beqb (sc_name sc) (tb_schema (lv_table x))
    && existsb (fun t => beqb (tb_name t) (tb_name (lv_table x))) (sc_tables sc)) cat.
Hypothesis DJ : forall s x, In s db -> In x (snd s) -> wanted d f (fst s) (tb_name (lv_table x)) = true -> old x = false.

Let sel := table_listed d f.
Definition added : list live_table := flat_map (fun s : live_schema => filter (sel (fst s)) (snd s)) db.
Lemma rows_added : rows_of db sel table_rows = map blank_live added.
Proof.
  unfold rows_of, added. rewrite !flat_map_concat_map, concat_map, map_map. f_equal. apply map_ext. intro s.
  induction (snd s) as [|x l IH]; [reflexivity|]. cbn [flat_map filter]. rewrite IH. destruct (sel (fst s) x); reflexivity.
Qed.
Lemma in_added x : In x added <-> exists s, In s db /\ In x (snd s) /\ sel (fst s) x = true.
Proof. unfold added. rewrite in_flat_map. split; intros (s & H1 & H2); exists s; [apply filter_In in H2|rewrite filter_In]; tauto. Qed.
Lemma place s x : In s db -> In x (snd s) -> tb_schema (lv_table x) = fst s.
Proof. intros Hs Hx. destruct (tab_ok d f db OK CL s x Hs Hx) as ((T & _) & _). exact T. Qed.
Lemma scope_new s x : In s db -> In x (snd s) -> in_scope d f (fst s) (tb_name (lv_table x)) = true -> old x = false.
Proof.
  intros Hs Hx S. apply (DJ s x Hs Hx). destruct CL as (CF & _). destruct (tab_ok d f db OK CL s x Hs Hx) as (_ & (N & _)).
  rewrite <- (scope_wanted d f db s x (not_other d db OK) CF Hs Hx N). exact S.
Qed.
Lemma listed_scope s x : columns_listed d f s x = true \/ keys_listed d f s x = true \/ sel s x = true -> in_scope d f s (tb_name (lv_table x)) = true.
Proof.
  unfold columns_listed, keys_listed, sel, table_listed. rewrite !andb_true_iff. tauto.
Qed.
Lemma added_new x : In x added -> old x = false.
Proof. intro H. apply in_added in H as (s & Hs & Hx & S). apply (scope_new s x Hs Hx). apply listed_scope. auto. Qed.
Lemma added_distinct : NoDup (map (fun x => (tb_schema (lv_table x), tb_name (lv_table x))) added).
Proof.
  pose proof (db_placed d db OK) as (P1 & P2). unfold added. clear DJ CK. revert P1 P2. generalize sel. intro sl.
  assert (PL : forall s x, In s db -> In x (snd s) -> tb_schema (lv_table x) = fst s) by exact place. clear OK CL. clear f sel. induction db as [|s l IH]; intros P1 P2; [constructor|].
  cbn [flat_map]. rewrite map_app. inversion P1 as [|? ? P3 P4]; subst. inversion P2 as [|? ? (P5 & P6) P7]; subst. apply NoDup_join.
  - assert (Q : NoDup (map (fun x => tb_name (lv_table x)) (filter (sl (fst s)) (snd s)))).
    { clear - P5. induction (snd s) as [|x l IH]; [constructor|]. cbn [map] in P5. inversion P5 as [|? ? A1 A2]; subst. cbn [filter].
      destruct (sl (fst s) x); [|auto]. cbn [map]. constructor; [|auto]. intro Z. apply A1.
      apply in_map_iff in Z as (y & Z1 & Z2). apply filter_In in Z2 as (Z2 & _). rewrite <- Z1. apply in_map_iff. eauto. }
    apply (NoDup_map_inv snd). rewrite map_map. exact Q.
  - apply IH; auto. intros s' x Hs. apply PL. right. exact Hs.
  - intros [a b] Z1 Z2. apply in_map_iff in Z1 as (x & X1 & X2). apply in_map_iff in Z2 as (y & Y1 & Y2).
    apply filter_In in X2 as (X2 & _). apply in_flat_map in Y2 as (s' & Y2 & Y3). apply filter_In in Y3 as (Y3 & _).
    injection X1 as X3 X4. injection Y1 as Y4 Y5. rewrite (PL s x) in X3 by (auto; left; reflexivity). rewrite (PL s' y) in Y4 by (auto; right; exact Y2).
    apply P3. rewrite X3, <- Y4. apply in_map. exact Y2.
Qed.

(** The tables that are there and those that are added. *)
Definition D' : database := fold_left extend added (db_of cat).
Definition g0 (x : live_table) : table := if old x then with_ignore (lv_table x) false else blank_live x.
Lemma g0_keeps : keeps g0.
Proof. intro x. unfold g0. destruct (old x); auto. Qed.
Lemma old_lies n x : lies (db_of cat) n x -> old x = true /\ exists sc, In sc cat /\ n = sc_name sc /\ exists t, In t (sc_tables sc) /\ x = as_live t.
Proof.
  intros (s & Hs & E & Hx). unfold db_of in Hs. apply in_map_iff in Hs as (sc & <- & Hsc). cbn [fst snd] in *. apply in_map_iff in Hx as (t & <- & Ht).
  split; [|exists sc; split; [exact Hsc|]; split; [auto|]; eauto]. unfold old. apply existsb_exists. exists sc. split; [exact Hsc|].
  destruct CK as (_ & F). rewrite Forall_forall in F. destruct (F sc Hsc) as (_ & _ & _ & T). rewrite Forall_forall in T. destruct (T t Ht) as ((_ & T2 & _) & _).
  cbn [as_live lv_table]. rewrite T2, beqb_refl. apply existsb_exists. exists t. split; [exact Ht|]. apply beqb_refl.
Qed.
Lemma old_is x : old x = true -> exists sc t, In sc cat /\ In t (sc_tables sc) /\ sc_name sc = tb_schema (lv_table x) /\ tb_name t = tb_name (lv_table x).
Proof.
  intro H. unfold old in H. apply existsb_exists in H as (sc & H1 & H2). apply andb_true_iff in H2 as (H2 & H3). apply existsb_exists in H3 as (t & H3 & H4).
  apply beqb_eq in H2, H4. exists sc, t. auto.
Qed.
Lemma cat_placed : placed (db_of cat) /\ (forall s, In s (db_of cat) -> snd s <> []).
Proof.
  destruct CK as (N & F). split; [split|].
  - unfold db_of. rewrite map_map. exact N.
  - unfold db_of. apply Forall_forall. intros s Hs. apply in_map_iff in Hs as (sc & <- & Hsc). rewrite Forall_forall in F. destruct (F sc Hsc) as (_ & _ & T1 & T2).
    cbn [fst snd]. rewrite map_map. split; [exact T1|]. apply Forall_forall. intros x Hx. apply in_map_iff in Hx as (t & <- & Ht). rewrite Forall_forall in T2.
    destruct (T2 t Ht) as ((_ & T3 & _) & _). exact T3.
  - intros s Hs. unfold db_of in Hs. apply in_map_iff in Hs as (sc & <- & Hsc). rewrite Forall_forall in F. destruct (F sc Hsc) as (_ & T & _). cbn [snd].
    destruct (sc_tables sc); [congruence|discriminate].
Qed.
Lemma g0_cat t sc : In sc cat -> In t (sc_tables sc) -> g0 (as_live t) = t.
Proof.
  intros Hsc Ht. destruct (old_lies (sc_name sc) (as_live t)) as (O & _).
  { exists (sc_name sc, map as_live (sc_tables sc)). split; [apply in_map_iff; eauto|]. split; [reflexivity|]. apply in_map. exact Ht. }
  unfold g0. rewrite O. destruct CK as (_ & F). rewrite Forall_forall in F. destruct (F sc Hsc) as (_ & _ & _ & T). rewrite Forall_forall in T.
  destruct (T t Ht) as ((T1 & _) & _). cbn [as_live lv_table]. destruct t. cbn in *. subst. reflexivity.
Qed.
Lemma start_state : good_state (db_of cat) all_of g0 (new_state cat).
Proof.
  split; [apply inv_weaken, new_state_inv, kept_distinct, CK|]. rewrite shape_all by apply cat_placed. unfold db_of, new_state. cbn [st_schemas].
  rewrite map_map. transitivity (map (fun sc : schema => sc) cat); [symmetry; apply map_id|]. apply map_ext_in. intros sc Hsc. cbn [fst snd]. rewrite map_map.
  assert (E : map (fun t => g0 (as_live t)) (sc_tables sc) = sc_tables sc).
  { rewrite <- (map_id (sc_tables sc)) at 2. apply map_ext_in. intros t Ht. eapply g0_cat; eassumption. }
  rewrite E. destruct CK as (_ & F). rewrite Forall_forall in F. destruct (F sc Hsc) as (T & _). destruct sc. cbn in *. subst. reflexivity.
Qed.
Lemma in_D' n x : lies D' n x <-> lies (db_of cat) n x \/ (In x added /\ n = tb_schema (lv_table x)).
Proof. apply lies_fold. Qed.
Lemma all_selected n x : lies D' n x -> selected D' all_of x.
Proof. intros (s & H1 & H2 & H3). exists s. auto. Qed.

Lemma other_rows {A} (ks kt : A -> bytes) sl rows x : old x = true ->
  (forall s y a, In s db -> In y (snd s) -> In a (rows s (lv_table y)) -> ks a = tb_schema (lv_table y) /\ kt a = tb_name (lv_table y)) ->
  (forall s y, sl s y = true -> in_scope d f s (tb_name (lv_table y)) = true) ->
  filter (mine ks kt x) (rows_of db sl rows) = [].
Proof.
  intros O H1 H2. assert (N : forall a, In a (rows_of db sl rows) -> mine ks kt x a = false).
  { intros a Ha. apply in_rows in Ha as (s & y & Hs & Hy & S & Ha). destruct (H1 s y a Hs Hy Ha) as (E1 & E2). unfold mine. rewrite E1, E2.
    destruct (is_key _ _ _) eqn:Q; [|reflexivity]. apply is_key_true in Q as (Q1 & Q2). exfalso.
    assert (Z : old y = false) by (apply (scope_new s y Hs Hy); apply (H2 (fst s) y S)).
    assert (old x = old y) by (unfold old; rewrite Q1, Q2; reflexivity). congruence. }
  induction (rows_of db sl rows) as [|a l IH]; [reflexivity|]. cbn [filter]. rewrite N by (left; reflexivity). apply IH. intros b Hb. apply N. right. exact Hb.
Qed.
Definition h1 := fold_rows col_schema col_table ccall (rows_of db (columns_listed d f) column_rows) g0.
Definition h2 := fold_rows con_schema con_table kcall (rows_of db (keys_listed d f) (key_rows d)) h1.
Definition h3 := fold_rows ix_schema ix_table icall (rows_of db (keys_listed d f) plain_indexes) h2.
Definition gg (x : live_table) : table := if old x then with_ignore (lv_table x) false else read_table db x.
Lemma h3_gg n x : lies D' n x -> h3 x = gg x.
Proof.
  intro H. apply in_D' in H as [H|(H & _)].
  - destruct (old_lies n x H) as (O & _). unfold h3, h2, h1, gg. rewrite O.
    unfold fold_rows at 1. rewrite other_rows; [|exact O| |intros; apply listed_scope; auto]; cbn [fold_left].
    2:{ intros s y a Hs Hy Ha. destruct (tab_ok d f db OK CL s y Hs Hy) as ((_ & _ & _ & _ & _ & _ & _ & F) & _). rewrite Forall_forall in F. destruct (F a Ha) as (A1 & A2 & _). auto. }
    unfold fold_rows at 1. rewrite other_rows; [|exact O| |intros; apply listed_scope; auto]; cbn [fold_left].
    2:{ intros s y a Hs Hy Ha. rewrite (key_rows_at d f db OK CL s y Hs Hy) in Ha. apply in_map_iff in Ha as (c & <- & Hc). cbn.
        destruct (tab_ok d f db OK CL s y Hs Hy) as ((_ & _ & _ & _ & _ & _ & F & _) & _). rewrite Forall_forall in F. destruct (F c Hc) as (A1 & A2 & _). auto. }
    unfold fold_rows. rewrite other_rows; [|exact O| |intros; apply listed_scope; auto]; cbn [fold_left].
    2:{ intros s y a Hs Hy Ha. destruct (tab_ok d f db OK CL s y Hs Hy) as ((_ & _ & _ & _ & _ & F & _) & _). rewrite Forall_forall in F. destruct (F a Ha) as (A1 & A2 & _). auto. }
    unfold g0. rewrite O. reflexivity.
  - pose proof (added_new x H) as O. unfold gg. rewrite O.
    rewrite <- (g3_read d f db OK CL x) by (apply in_added in H as (s & Hs & Hx & S); exists s; auto).
    unfold h3, g3. apply fold_rows_at. unfold h2, g2. apply fold_rows_at. unfold h1, g1. apply fold_rows_at. unfold g0. rewrite O. reflexivity.
Qed.
Lemma into_state : placed D' /\ (forall s, In s D' -> snd s <> []) /\ exists st1 st2 st3 st4,
  each_row add_table (new_state cat) (rows_of db sel table_rows) = Ok st1
  /\ each_row add_column st1 (rows_of db (columns_listed d f) column_rows) = Ok st2
  /\ each_row add_constraint st2 (rows_of db (keys_listed d f) (key_rows d)) = Ok st3
  /\ each_row add_index st3 (rows_of db (keys_listed d f) plain_indexes) = Ok st4
  /\ good_state D' all_of gg st4.
Proof.
  destruct (add_tables g0 g0_keeps added (db_of cat) (new_state cat)) as (st1 & R1 & G1 & P & NE).
  { apply cat_placed. } { apply cat_placed. } { exact start_state. } { exact added_distinct. }
  { intros x y Hx Hy E. destruct (old_lies _ _ Hy) as (_ & sc & Hsc & Es & t & Ht & ->). pose proof (added_new x Hx) as O. cbn [as_live lv_table] in E.
    assert (old x = true); [|congruence]. unfold old. apply existsb_exists. exists sc. split; [exact Hsc|]. rewrite <- Es, beqb_refl. apply existsb_exists. exists t.
    split; [exact Ht|]. apply beqb_eq. exact E. }
  { intros x Hx. unfold g0. rewrite (added_new x Hx). reflexivity. }
  fold D' in G1, P, NE. split; [exact P|]. split; [exact NE|].
  destruct (rows_good D' all_of col_schema col_table ccall add_column (rows_of db (columns_listed d f) column_rows) g0 st1) as (st2 & R2 & G2 & K2).
  { intros g st a K G Ha. apply if_table_good; auto. exact I. }
  { exact g0_keeps. }
  { exact G1. }
  destruct (rows_good D' all_of con_schema con_table kcall add_constraint (rows_of db (keys_listed d f) (key_rows d)) h1 st2) as (st3 & R3 & G3 & K3).
  { intros g st a K G Ha. apply in_rows in Ha as (s & x & Hs & Hx & S & Ha). rewrite (key_rows_at d f db OK CL) in Ha by assumption.
    assert (S' : sel (fst s) x = true) by (apply (keys_selected d f db OK CL); auto; intro Z; rewrite Z in Ha; destruct Ha).
    apply in_map_iff in Ha as (c & <- & Hc).
    destruct (tab_ok d f db OK CL s x Hs Hx) as ((T1 & _ & _ & _ & _ & _ & F & _) & _). rewrite Forall_forall in F. destruct (F c Hc) as (A1 & A2 & _).
    assert (LX : lies D' (tb_schema (lv_table x)) x) by (apply in_D'; right; split; [apply in_added; exists s; auto|reflexivity]).
    unfold add_constraint. cbn [want_constraint con_schema con_table].
    destruct G as (I & E). pose proof (inv_right_lookups _ _ I) as (L1 & _). specialize (L1 (con_schema c)).
    destruct (get_schema st (con_schema c)) as [[i|]| |]; cbn in L1; try contradiction; cbn [bindr].
    - apply (step_good D' all_of P g st); auto; [split; assumption|exact Logic.I|].
      exists x. split; [eapply all_selected, LX|]. apply is_key_true. auto.
    - exfalso. destruct LX as (s' & L2 & L3 & L4). 
      assert (Y : In (Schema (fst s') (map g (snd s')) false) (st_schemas st)).
      { rewrite E, shape_all by exact NE. apply in_map_iff. exists s'. auto. }
      apply L1 in Y; [discriminate Y|]. cbn. congruence. }
  { exact K2. }
  { exact G2. }
  destruct (rows_good D' all_of ix_schema ix_table icall add_index (rows_of db (keys_listed d f) plain_indexes) h2 st3) as (st4 & R4 & G4 & K4).
  { intros g st a K G Ha. apply if_table_good; auto. exact I. }
  { exact K3. }
  { exact G3. }
  exists st1, st2, st3, st4. rewrite rows_added. repeat (split; [assumption|]).
  destruct G4 as (I4 & E4). split; [exact I4|]. rewrite E4. apply shape_ext. intros x (s & H1 & H2 & _). apply (h3_gg (fst s)). exists s. auto.
Qed.

Lemma flagged_twice tb : flagged (flagged tb) = flagged tb.
Proof.
  unfold flagged, with_columns. cbn [tb_schema tb_name tb_sql tb_virtual tb_columns tb_constraints tb_indexes tb_ignore]. f_equal. rewrite map_map.
  apply map_ext. intro y. rewrite !fold_flags. unfold with_flags. cbn. f_equal; destruct (existsb _ _); reflexivity.
Qed.
Lemma flagged_names tb : map col_name (tb_columns (flagged tb)) = map col_name (tb_columns tb).
Proof. unfold flagged. cbn [with_columns tb_columns]. rewrite map_map. apply map_ext. intro y. rewrite fold_flags. reflexivity. Qed.
Lemma new_kept s x : In s db -> In x (snd s) -> kept_table (fst s) (flagged (read_table db x)) /\ flagged (read_table db x) = want_table db (lv_table x).
Proof.
  intros Hs Hx. destruct (tab_ok d f db OK CL s x Hs Hx) as ((T1 & T2 & T3 & T4 & T5 & T6 & T7 & T8) & (_ & _ & _ & C4 & _)).
  rewrite Forall_forall in T6, T7, C4. split.
  - split; [|split; [|split; [|split]]].
    + split; [reflexivity|]. split; [exact T1|]. split; [rewrite flagged_names; exact T3|]. split; [|exact T4].
      cbn [flagged with_columns tb_constraints read_table]. rewrite map_map. cbn [want_constraint con_name].
      destruct CL as (_ & C). rewrite Forall_forall in C. destruct (C s Hs) as (_ & C3).
      assert (D : d = SQLite \/ NoDup (map con_name (tb_constraints (lv_table x)))).
      { destruct d; auto. right. specialize (C3 eq_refl).
        assert (I : incl (tb_constraints (lv_table x)) (schema_constraints s)).
        { intros c Hc. unfold schema_constraints. apply in_flat_map. eauto. }
        clear - T5 C3 I. induction (tb_constraints (lv_table x)) as [|c l IH]; [constructor|]. cbn [map] in *.
        inversion T5 as [|? ? D1 D2]; subst. constructor.
        - intro Z. apply in_map_iff in Z as (o & Z1 & Z2). apply D1. apply in_map_iff. exists o. split; [|exact Z2].
          rewrite Z1. f_equal. apply C3; [apply I; right; exact Z2|apply I; left; reflexivity|exact Z1].
        - apply IH; [exact D2|]. intros y Hy. apply I. right. exact Hy. }
      destruct D as [D|D]; [|apply NoDup_filter; exact D].
      assert (Z : filter (fun n => negb (beqb n [])) (map con_name (tb_constraints (lv_table x))) = []).
      { clear - T7 D. induction (tb_constraints (lv_table x)) as [|c l IH]; [reflexivity|]. cbn [map filter].
        destruct (T7 c (or_introl eq_refl)) as (_ & _ & _ & N & _). rewrite (proj2 N D). cbn. apply IH. intros y Hy. apply T7. right. exact Hy. }
      change (NoDup (filter (fun n => negb (beqb n [])) (map con_name (tb_constraints (lv_table x))))). rewrite Z. constructor.
    + intros y Hy. cbn [flagged with_columns tb_columns] in Hy. apply in_map_iff in Hy as (c & <- & Hc). rewrite fold_flags. cbn.
      destruct (T6 c Hc) as (_ & _ & _ & _ & _ & Z). exact Z.
    + intros c Hc. rewrite flagged_names. cbn [flagged with_columns tb_constraints read_table] in Hc. apply in_map_iff in Hc as (k & <- & Hk).
      cbn [want_constraint con_type con_columns]. destruct (T7 k Hk) as (_ & _ & _ & _ & _ & _ & Z & _). exact Z.
    + intros c Hc. cbn [flagged with_columns tb_constraints read_table] in Hc. apply in_map_iff in Hc as (k & <- & Hk).
      cbn [want_constraint con_type con_refcolumns]. intro Q. rewrite Q. destruct (C4 k Hk) as (_ & Z & _). specialize (Z Q).
      replace (beqb FOREIGN_KEY FOREIGN_KEY) with true by reflexivity. destruct (con_refcolumns k); [congruence|discriminate].
    + apply flagged_twice.
  - unfold flagged, read_table, with_columns, want_table.
    cbn [tb_schema tb_name tb_sql tb_virtual tb_columns tb_constraints tb_indexes tb_ignore]. f_equal.
    apply map_ext_in. intros c Hc. destruct (T6 c Hc) as (_ & _ & _ & U1 & U2 & _). apply want_flags; assumption.
Qed.
Lemma old_kept sc t : In sc cat -> In t (sc_tables sc) -> kept_table (sc_name sc) t /\ gg (as_live t) = t.
Proof.
  intros Hsc Ht. split.
  - destruct CK as (_ & F). rewrite Forall_forall in F. destruct (F sc Hsc) as (_ & _ & _ & T). rewrite Forall_forall in T. auto.
  - rewrite <- (g0_cat t sc Hsc Ht) at 2. unfold gg, g0. destruct (old_lies (sc_name sc) (as_live t)) as (O & _).
    { exists (sc_name sc, map as_live (sc_tables sc)). split; [apply in_map_iff; eauto|]. split; [reflexivity|]. apply in_map. exact Ht. }
    rewrite O. reflexivity.
Qed.
(** Each table, before its flags are set. *)
Lemma gg_kept n x : lies D' n x -> kept_table n (flagged (gg x)) /\ tb_name (flagged (gg x)) = tb_name (lv_table x)
  /\ ((exists sc, In sc cat /\ sc_name sc = n /\ In (flagged (gg x)) (sc_tables sc))
      \/ (exists s, In s db /\ fst s = n /\ In x (filter (is_wanted d f n) (snd s)) /\ flagged (gg x) = want_table db (lv_table x))).
Proof.
  intro H. apply in_D' in H as [H|(H & E)].
  - destruct (old_lies n x H) as (_ & sc & Hsc & -> & t & Ht & ->). destruct (old_kept sc t Hsc Ht) as (K & G). rewrite G.
    assert (FT : flagged t = t) by apply K. rewrite FT. split; [exact K|]. split; [reflexivity|]. left. eauto.
  - pose proof (added_new x H) as O. apply in_added in H as (s & Hs & Hx & S). pose proof (place s x Hs Hx) as PL. subst n.
    unfold gg. rewrite O. destruct (new_kept s x Hs Hx) as (K & W). rewrite PL. split; [exact K|]. split; [reflexivity|]. right.
    exists s. split; [exact Hs|]. split; [reflexivity|]. split; [|exact W]. apply filter_In. split; [exact Hx|].
    destruct CL as (CF & _). destruct (tab_ok d f db OK CL s x Hs Hx) as (_ & (N & _)). unfold is_wanted.
    rewrite <- (scope_wanted d f db s x (not_other d db OK) CF Hs Hx N). exact S.
Qed.
Theorem read_into_adds : exists r, read_into d f db cat = Ok r /\ kept r
  /\ forall s t, holds r s t <-> holds cat s t \/ holds (want d f db) s t.
Proof.
  destruct into_state as (P & NE & st1 & st2 & st3 & st4 & R1 & R2 & R3 & R4 & (I4 & E4)).
  exists (map (fun s : live_schema => Schema (fst s) (map (fun x => flagged (gg x)) (snd s)) false) D').
  split; [|split].
  - unfold read_into. replace (match d with Other => true | _ => bad_filter d f end) with false.
    2:{ symmetry. apply (choice_fine d f db); [exact (not_other d db OK)|apply CL]. }
    fold sel. rewrite R1. cbn [bindr]. rewrite R2. cbn [bindr]. rewrite R3. cbn [bindr].
    rewrite (index_queries d f db OK CL), map_result_oks. cbn [bindr]. rewrite R4. cbn [bindr]. rewrite E4.
    pose proof (inv_right_lookups _ _ I4) as (_ & L2). rewrite E4 in L2. rewrite shape_all in * by exact NE.
    rewrite (map_result_ok _ (fun sc => with_tables sc (map flagged (sc_tables sc)))).
    + f_equal. rewrite map_map. apply map_ext. intro s. unfold with_tables. cbn [sc_name sc_tables sc_ignore]. rewrite map_map. reflexivity.
    + intros sc Hsc. destruct (L2 sc Hsc) as (_ & L3). apply in_map_iff in Hsc as (s & <- & Hs). cbn [sc_tables] in L3. unfold flag_schema. cbn [sc_tables].
      rewrite (map_result_ok _ flagged); [reflexivity|]. intros tb Htb. destruct (L3 tb Htb) as (L4 & _).
      apply in_map_iff in Htb as (x & <- & Hx). destruct (gg_kept (fst s) x) as (K & _); [exists s; auto|].
      destruct K as ((_ & _ & K1 & _) & K2 & K3 & K4 & _). rewrite flagged_names in K1, K3.
      unfold flag_table. apply flag_all.
      * exact L4.
      * exact K1.
      * intros c Hc. specialize (K2 (fold_left (fun y x => key_flag x y) (tb_constraints (gg x)) c)). rewrite fold_flags in K2. cbn in K2. apply K2.
        apply in_map_iff. exists c. split; [apply fold_flags|exact Hc].
      * exact K3.
      * exact K4.
  - split; [rewrite map_map; apply P|]. apply Forall_forall. intros sc Hsc. apply in_map_iff in Hsc as (s & <- & Hs). cbn [sc_name sc_tables sc_ignore].
    split; [reflexivity|]. split; [intro Z; apply (NE s Hs); destruct (snd s); [reflexivity|discriminate]|].
    split.
    + rewrite map_map. rewrite (map_ext_in _ (fun x => tb_name (lv_table x))).
      * destruct P as (_ & P). rewrite Forall_forall in P. apply (P s Hs).
      * intros x Hx. apply (gg_kept (fst s)). exists s. auto.
    + apply Forall_forall. intros t Ht. apply in_map_iff in Ht as (x & <- & Hx). apply (gg_kept (fst s)). exists s. auto.
  - intros n t. split.
    + intros (sc & Hsc & E & Ht). apply in_map_iff in Hsc as (s & <- & Hs). cbn [sc_name sc_tables] in *. apply in_map_iff in Ht as (x & <- & Hx).
      destruct (gg_kept n x) as (_ & _ & [Z|(s' & Z1 & Z2 & Z3 & Z4)]); [exists s; auto|left; exact Z|]. right.
      exists (Schema (fst s') (map (fun x => want_table db (lv_table x)) (filter (is_wanted d f (fst s')) (snd s'))) false). subst n. rewrite Z2 in *.
      split; [|split; [reflexivity|cbn [sc_tables]; rewrite Z4; apply in_map_iff; eauto]]. unfold want. apply in_flat_map. exists s'. split; [exact Z1|]. unfold want_schema. rewrite Z2.
      destruct (filter _ (snd s')); [destruct Z3|left; reflexivity].
    + intros [(sc & Hsc & E & Ht)|(sc & Hsc & E & Ht)].
      * destruct (old_kept sc t Hsc Ht) as (K & G).
        assert (Z : lies D' n (as_live t)).
        { apply in_D'. left. exists (sc_name sc, map as_live (sc_tables sc)). split; [apply in_map_iff; eauto|]. split; [exact E|]. apply in_map. exact Ht. }
        destruct Z as (s & Z1 & Z2 & Z3). exists (Schema (fst s) (map (fun x => flagged (gg x)) (snd s)) false). split; [apply in_map_iff; eauto|].
        split; [exact Z2|]. cbn [sc_tables]. apply in_map_iff. exists (as_live t). split; [|exact Z3]. rewrite G. apply K.
      * unfold want in Hsc. apply in_flat_map in Hsc as (s & Hs & Hsc). unfold want_schema in Hsc.
        destruct (filter (is_wanted d f (fst s)) (snd s)) as [|y l] eqn:F; [destruct Hsc|]. rewrite <- F in Hsc. destruct Hsc as [<-|[]].
        cbn [sc_name sc_tables] in *. apply in_map_iff in Ht as (x & <- & Hx). apply filter_In in Hx as (Hx & W).
        assert (S : sel (fst s) x = true).
        { destruct CL as (CF & _). destruct (tab_ok d f db OK CL s x Hs Hx) as (_ & (N & _)). unfold is_wanted in W. unfold sel, table_listed.
          rewrite (scope_wanted d f db s x (not_other d db OK) CF Hs Hx N). exact W. }
        assert (A : In x added) by (apply in_added; exists s; auto).
        assert (Z : lies D' n x) by (apply in_D'; right; split; [exact A|]; rewrite (place s x Hs Hx); auto).
        destruct Z as (s' & Z1 & Z2 & Z3). exists (Schema (fst s') (map (fun x => flagged (gg x)) (snd s')) false). split; [apply in_map_iff; eauto|].
        split; [exact Z2|]. cbn [sc_tables]. apply in_map_iff. exists x. split; [|exact Z3]. unfold gg. rewrite (added_new x A). apply new_kept with s; auto.
Qed.
End Read.

(** ** Several databases *)
Lemma asked_in_way d y s n : has_named (asked d y) s n -> in_way d y s n.
Proof.
  intros (t & (sc & Hsc & E & Ht) & N). unfold asked, want in Hsc. apply in_flat_map in Hsc as (l & Hl & Hsc). unfold want_schema in Hsc.
  destruct (filter (is_wanted d (fst y) (fst l)) (snd l)) as [|z zs] eqn:F; [destruct Hsc|]. rewrite <- F in Hsc. destruct Hsc as [<-|[]].
  cbn [sc_name sc_tables] in *. apply in_map_iff in Ht as (x & <- & Hx). apply filter_In in Hx as (Hx & W). cbn [want_table tb_name] in N.
  exists l, x. unfold is_wanted in W. apply andb_true_iff in W as (W & _). subst. auto.
Qed.
Lemma read_all_adds d : forall sources cat, kept cat ->
  (forall x, In x sources -> database_ok d (snd x) /\ clear d (fst x) (snd x)) ->
  ForallOrdPairs (apart d) sources ->
  (forall y s n, In y sources -> has_named cat s n -> ~ in_way d y s n) ->
  exists r, read_all d sources cat = Ok r /\ kept r
    /\ forall s t, holds r s t <-> holds cat s t \/ exists x, In x sources /\ holds (asked d x) s t.
Proof.
  induction sources as [|(f, db) l IH]; intros cat K OK A DJ.
  - exists cat. split; [reflexivity|]. split; [exact K|]. intros s t. split; [auto|]. intros [H|(x & [] & _)]. exact H.
  - inversion A as [|? ? A1 A2]; subst. destruct (OK (f, db) (or_introl eq_refl)) as (OK1 & OK2). cbn [fst snd] in *.
    destruct (read_into_adds d f db OK1 OK2 cat K) as (r1 & R1 & K1 & H1).
    { intros s x Hs Hx W. destruct (old cat x) eqn:O; [|reflexivity]. exfalso. apply old_is in O as (sc & t & O1 & O2 & O3 & O4).
      assert (PL : tb_schema (lv_table x) = fst s) by (eapply place; eassumption).
      apply (DJ (f, db) (fst s) (tb_name (lv_table x)) (or_introl eq_refl)).
      - exists t. split; [|exact O4]. exists sc. rewrite <- PL. auto.
      - exists s, x. cbn. auto. }
    destruct (IH r1 K1) as (r & R & K2 & H2).
    { intros x Hx. apply OK. right. exact Hx. }
    { exact A2. }
    { intros y s n Hy (t & Ht & N). apply H1 in Ht as [Ht|Ht].
      - apply (DJ y); [right; exact Hy|exists t; auto].
      - rewrite Forall_forall in A1. apply (A1 y Hy). exists t. auto. }
    exists r. cbn [read_all]. rewrite R1. cbn [bindr]. split; [exact R|]. split; [exact K2|]. intros s t. rewrite H2, H1. split.
    + intros [[H|H]|(x & H3 & H4)]; [auto| |]; right; [exists (f, db); split; [left; reflexivity|exact H]|exists x; split; [right; exact H3|exact H4]].
    + intros [H|(x & [<-|H3] & H4)]; [auto|auto|]. right. eauto.
Qed.
Lemma kept_nil : kept [].
Proof. split; constructor. Qed.
Theorem combined_apart d sources :
  (forall x, In x sources -> database_ok d (snd x) /\ clear d (fst x) (snd x)) -> ForallOrdPairs (apart d) sources ->
  exists r, read_all d sources [] = Ok r /\ combined d sources r.
Proof.
  intros OK A. destruct (read_all_adds d sources [] kept_nil OK A) as (r & R & K & H).
  { intros y s n _ (t & (sc & [] & _) & _). }
  exists r. split; [exact R|]. split; [apply kept_distinct, K|]. intros s t. rewrite H. split.
  - intros [(sc & [] & _)|(x & Hx & Ht)]. apply in_split in Hx as (a & b & ->). exists a, x, b. split; [reflexivity|]. split; [exact Ht|].
    intros y Hy Z. apply asked_in_way in Z. assert (AP : apart d x y).
    { clear - A Hy. induction a as [|z a IH]; cbn [app] in A; inversion A as [|? ? A1 A2]; subst; [|auto]. rewrite Forall_forall in A1. auto. }
    apply (AP s (tb_name t)); [exists t; auto|exact Z].
  - intros (a & x & b & -> & Ht & _). right. exists x. split; [|exact Ht]. apply in_or_app. right. left. reflexivity.
Qed.
