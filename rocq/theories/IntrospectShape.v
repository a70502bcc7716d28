(** Adding rows to the catalog, table by table. *)
From Verif Require Import GoStr GoStrFacts ModelCatalog ModelCache SpecCache CacheFacts ModelIntrospect.

(** A database whose schemas and tables have different names. *)
Definition placed (db : database) : Prop :=
  NoDup (map fst db)
  /\ Forall (fun s : live_schema => NoDup (map (fun x => tb_name (lv_table x)) (snd s))
       /\ Forall (fun x => tb_schema (lv_table x) = fst s) (snd s)) db.
Definition is_key (s t : bytes) (x : live_table) : bool :=
  beqb s (tb_schema (lv_table x)) && beqb t (tb_name (lv_table x)).
Lemma is_key_true s t x : is_key s t x = true <-> s = tb_schema (lv_table x) /\ t = tb_name (lv_table x).
Proof. unfold is_key. rewrite andb_true_iff, !beqb_eq. tauto. Qed.

Lemma placed_same : forall db s1 s2 x1 x2, placed db -> In s1 db -> In s2 db -> In x1 (snd s1) -> In x2 (snd s2) ->
  tb_schema (lv_table x1) = tb_schema (lv_table x2) -> tb_name (lv_table x1) = tb_name (lv_table x2) -> s1 = s2 /\ x1 = x2.
Proof.
  intros db s1 s2 x1 x2 (P1 & P2) I1 I2 J1 J2 E1 E2. rewrite Forall_forall in P2.
  destruct (P2 _ I1) as (N1 & T1), (P2 _ I2) as (N2 & T2). rewrite Forall_forall in T1, T2.
  assert (s1 = s2).
  { apply (NoDup_map_inj_on fst db); auto. rewrite <- (T1 _ J1), <- (T2 _ J2). exact E1. }
  subst s2. split; [reflexivity|]. eapply (NoDup_map_inj_on (fun x => tb_name (lv_table x))); eauto.
Qed.

(** The catalog with the selected tables. *)
Section Shape.
Variable db : database.
Variable sel : bytes -> live_table -> bool.
Hypothesis P : placed db.

Definition schema_with (g : live_table -> table) (s : live_schema) : list schema :=
  match filter (sel (fst s)) (snd s) with
  | [] => []
  | l => [Schema (fst s) (map g l) false]
  end.
Definition shape (g : live_table -> table) : list schema := flat_map (schema_with g) db.
(** Tables keep their names. *)
Definition keeps (g : live_table -> table) : Prop :=
  forall x, tb_schema (g x) = tb_schema (lv_table x) /\ tb_name (g x) = tb_name (lv_table x) /\ tb_ignore (g x) = false.
Definition selected (x : live_table) : Prop := exists s, In s db /\ In x (snd s) /\ sel (fst s) x = true.

Lemma in_shape g sc : In sc (shape g) -> exists s, In s db /\ sc = Schema (fst s) (map g (filter (sel (fst s)) (snd s))) false.
Proof.
  intro H. apply in_flat_map in H as (s & H1 & H2). exists s. split; [exact H1|].
  unfold schema_with in H2. destruct (filter (sel (fst s)) (snd s)); [destruct H2|].
  destruct H2 as [<-|[]]. reflexivity.
Qed.
Lemma shape_in g s : In s db -> filter (sel (fst s)) (snd s) <> [] ->
  In (Schema (fst s) (map g (filter (sel (fst s)) (snd s))) false) (shape g).
Proof.
  intros H N. apply in_flat_map. exists s. split; [exact H|]. unfold schema_with.
  destruct (filter (sel (fst s)) (snd s)); [congruence|]. left. reflexivity.
Qed.
Lemma shape_ext g h : (forall x, selected x -> g x = h x) -> shape g = shape h.
Proof.
  intro H. unfold shape. rewrite !flat_map_concat_map. f_equal. apply map_ext_in. intros s Hs.
  unfold schema_with. destruct (filter (sel (fst s)) (snd s)) as [|y l] eqn:E; [reflexivity|].
  do 2 f_equal. apply map_ext_in. intros x Hx. apply H. rewrite <- E in Hx. apply filter_In in Hx as (A1 & A2).
  exists s. auto.
Qed.

Definition bump (s t : bytes) (o : call) (g : live_table -> table) (x : live_table) : table :=
  if is_key s t x then after_table o (g x) else g x.
Lemma after_table_keeps o t : tb_schema (after_table o t) = tb_schema t /\ tb_name (after_table o t) = tb_name t
  /\ tb_ignore (after_table o t) = tb_ignore t.
Proof. destruct o; auto. Qed.
Lemma bump_keeps s t o g : keeps g -> keeps (bump s t o g).
Proof.
  intros K x. unfold bump. destruct (is_key s t x); [|apply K].
  destruct (after_table_keeps o (g x)) as (A1 & A2 & A3). rewrite A1, A2, A3. apply K.
Qed.

Lemma put_in_there {A} (is : A -> bool) new f l : existsb is l = true -> put_in is new f l = map (fun a => if is a then f a else a) l.
Proof. intro H. unfold put_in. rewrite H. reflexivity. Qed.
Lemma put_in_new {A} (is : A -> bool) new f l : existsb is l = false -> put_in is new f l = l ++ [f new].
Proof. intro H. unfold put_in. rewrite H. reflexivity. Qed.
Lemma live_is {A} (name : A -> bytes) ign n a : ign a = false -> live name ign n a = beqb (name a) n.
Proof. intro H. unfold live. rewrite H. apply andb_true_r. Qed.
Lemma beqb_sym a b : beqb a b = beqb b a.
Proof. destruct (beqb a b) eqn:E; symmetry; [apply beqb_eq in E; subst; apply beqb_refl|].
  destruct (beqb b a) eqn:F; [|reflexivity]. apply beqb_eq in F. subst. rewrite beqb_refl in E. discriminate. Qed.

Lemma after_shape g o t x0 : keeps g -> table_of o = Some t -> selected x0 -> tb_name (lv_table x0) = t ->
  after (shape g) (tb_schema (lv_table x0), o) = shape (bump (tb_schema (lv_table x0)) t o g).
Proof.
  intros K O (s0 & I0 & J0 & S0) N0. pose proof P as (P1 & P2). rewrite Forall_forall in P2.
  destruct (P2 _ I0) as (N1 & T1). rewrite Forall_forall in T1. rewrite (T1 _ J0).
  assert (F0 : In x0 (filter (sel (fst s0)) (snd s0))) by (apply filter_In; auto).
  unfold after. cbn [fst snd]. rewrite put_in_there.
  2:{ apply existsb_exists. eexists. split.
      - apply (shape_in g s0 I0). intro Z. rewrite Z in F0. destruct F0.
      - unfold live. cbn [sc_name sc_ignore]. rewrite beqb_refl. reflexivity. }
  unfold shape. rewrite !flat_map_concat_map, concat_map, map_map. f_equal. apply map_ext_in. intros s Hs.
  unfold schema_with. destruct (filter (sel (fst s)) (snd s)) as [|y l] eqn:E; [reflexivity|].
  rewrite <- E. cbn [map]. unfold live at 1. cbn [sc_name sc_ignore]. rewrite andb_true_r.
  destruct (P2 _ Hs) as (N2 & T2). rewrite Forall_forall in T2.
  destruct (beqb (fst s) (fst s0)) eqn:Q.
  - apply beqb_eq in Q. assert (s = s0) by (apply (NoDup_map_inj_on fst db); auto). subst s.
    unfold after_schema. rewrite O. unfold with_tables. cbn [sc_name sc_tables sc_ignore]. do 2 f_equal.
    rewrite put_in_there.
    2:{ apply existsb_exists. exists (g x0). split; [apply in_map; exact F0|].
        destruct (K x0) as (K1 & K2 & K3). rewrite live_is by exact K3. rewrite K2, N0. apply beqb_refl. }
    rewrite map_map. apply map_ext_in. intros x Hx. apply filter_In in Hx as (Hx & _).
    destruct (K x) as (K1 & K2 & K3). rewrite live_is by exact K3. rewrite K2. unfold bump, is_key.
    rewrite (T2 _ Hx), beqb_refl. cbn [andb]. rewrite (beqb_sym t). reflexivity.
  - do 2 f_equal. apply map_ext_in. intros x Hx. apply filter_In in Hx as (Hx & _). unfold bump, is_key.
    rewrite (T2 _ Hx), (beqb_sym (fst s0)), Q. reflexivity.
Qed.
Lemma bump_absent g s t o : (forall x, selected x -> is_key s t x = false) -> shape (bump s t o g) = shape g.
Proof. intro H. apply shape_ext. intros x Hx. unfold bump. rewrite (H x Hx). reflexivity. Qed.

(** ** One row *)
Definition good_state (g : live_table -> table) (st : state) : Prop := st_inv false st /\ st_schemas st = shape g.
Lemma step_good g st s t o : keeps g -> good_state g st -> table_of o = Some t -> careful st s o ->
  (exists x, selected x /\ is_key s t x = true) -> exists st', step st s o = Ok st' /\ good_state (bump s t o g) st'.
Proof.
  intros K (I & E) O C (x & X1 & X2). apply is_key_true in X2 as (-> & ->).
  destruct (step_ok false st _ o I C) as (st' & R & I' & W); [discriminate|].
  exists st'. split; [exact R|]. split; [exact I'|]. rewrite W, E. apply after_shape; auto.
Qed.
Lemma if_table_good g st s t o : keeps g -> good_state g st -> table_of o = Some t -> careful st s o ->
  exists st', if_table st s t o = Ok st' /\ good_state (bump s t o g) st'.
Proof.
  intros K G O C. pose proof G as (I & E). pose proof (inv_right_lookups _ _ I) as (R1 & R2).
  unfold if_table. specialize (R1 s). destruct (get_schema st s) as [[i|]| |] eqn:Q; cbn in R1; try contradiction; cbn [bindr].
  - destruct R1 as ((sc & H1 & H2 & _) & _). rewrite H1.
    destruct (R2 sc (nth_error_In _ _ H1)) as (R3 & _). specialize (R3 t).
    pose proof (nth_error_In _ _ H1) as H3. rewrite E in H3. apply in_shape in H3 as (s0 & S1 & ->). cbn [sc_name sc_tables] in *.
    subst s. pose proof P as (_ & P2). rewrite Forall_forall in P2. destruct (P2 _ S1) as (_ & T1). rewrite Forall_forall in T1.
    destruct (get_table _ _ t) as [[j|]| |] eqn:Q2; cbn in R3; try contradiction; cbn [bindr].
    + destruct R3 as ((tb & H4 & H5 & _) & _). apply nth_error_In in H4. apply in_map_iff in H4 as (x & <- & X).
      apply filter_In in X as (X1 & X2). apply step_good; auto. exists x. split; [exists s0; auto|].
      apply is_key_true. rewrite (T1 _ X1), <- H5. destruct (K x) as (_ & K2 & _). auto.
    + exists st. split; [reflexivity|]. split; [exact I|]. rewrite bump_absent; [exact E|].
      intros x (s1 & X1 & X2 & X3). destruct (is_key (fst s0) t x) eqn:Z; [|reflexivity]. exfalso.
      apply is_key_true in Z as (Z1 & Z2). destruct (P2 _ X1) as (_ & T2). rewrite Forall_forall in T2. rewrite (T2 _ X2) in Z1.
      assert (s1 = s0) by (apply (NoDup_map_inj_on fst db); auto; apply P). subst s1.
      assert (In (g x) (map g (filter (sel (fst s0)) (snd s0)))) by (apply in_map, filter_In; auto).
      destruct (K x) as (_ & K2 & K3). pose proof (R3 (g x) H) as Y. rewrite K2 in Y. rewrite Y in K3 by auto. discriminate.
  - exists st. split; [reflexivity|]. split; [exact I|]. rewrite bump_absent; [exact E|].
    intros x (s1 & X1 & X2 & X3). destruct (is_key s t x) eqn:Z; [|reflexivity]. exfalso.
    apply is_key_true in Z as (Z1 & Z2). pose proof P as (_ & P2). rewrite Forall_forall in P2.
    destruct (P2 _ X1) as (_ & T2). rewrite Forall_forall in T2. rewrite (T2 _ X2) in Z1.
    assert (Y : In (Schema (fst s1) (map g (filter (sel (fst s1)) (snd s1))) false) (st_schemas st)).
    { rewrite E. apply shape_in; [exact X1|]. intro N.
      assert (In x (filter (sel (fst s1)) (snd s1))) by (apply filter_In; auto). rewrite N in H. destruct H. }
    apply R1 in Y; [discriminate Y|]. cbn. auto.
Qed.

(** ** Many rows *)
Section Rows.
Context {A : Type}.
Variable ks : A -> bytes.
Variable kt : A -> bytes.
Variable op : A -> call.
Hypothesis op_table : forall a, table_of (op a) = Some (kt a).
Hypothesis op_careful : forall st a, careful st (ks a) (op a).
Definition mine (x : live_table) (a : A) : bool := is_key (ks a) (kt a) x.
Definition fold_rows (L : list A) (g : live_table -> table) (x : live_table) : table :=
  fold_left (fun t a => after_table (op a) t) (filter (mine x) L) (g x).
Lemma fold_rows_cons a L g x : fold_rows (a :: L) g x = fold_rows L (bump (ks a) (kt a) (op a) g) x.
Proof. unfold fold_rows, bump. cbn [filter]. unfold mine at 1. destruct (is_key (ks a) (kt a) x); reflexivity. Qed.
Lemma rows_good (f : state -> A -> result state) L : forall g st,
  (forall g st a, keeps g -> good_state g st -> In a L -> exists st', f st a = Ok st' /\ good_state (bump (ks a) (kt a) (op a) g) st') ->
  keeps g -> good_state g st ->
  exists st', each_row f st L = Ok st' /\ good_state (fold_rows L g) st' /\ keeps (fold_rows L g).
Proof.
  induction L as [|a L IH]; intros g st H K G; cbn [each_row].
  - exists st. split; [reflexivity|]. split; [exact G|]. exact K.
  - destruct (H g st a K G (or_introl eq_refl)) as (st1 & R1 & G1). rewrite R1. cbn [bindr].
    destruct (IH _ _ (fun g st b K G I => H g st b K G (or_intror I)) (bump_keeps _ _ _ _ K) G1) as (st2 & R2 & G2 & K2).
    exists st2. split; [exact R2|].
    assert (X : forall x, fold_rows (a :: L) g x = fold_rows L (bump (ks a) (kt a) (op a) g) x) by (intro; apply fold_rows_cons).
    split.
    + destruct G2 as (G2 & G3). split; [exact G2|]. rewrite G3. apply shape_ext. intros x _. symmetry. apply X.
    + intro x. rewrite X. apply K2.
Qed.
End Rows.
End Shape.

(** The rows of a table. *)
Lemma rows_own : forall {A} db (ks kt : A -> bytes) sel rows s0 x0, placed db -> In s0 db -> In x0 (snd s0) ->
  (forall s x a, In s db -> In x (snd s) -> In a (rows s (lv_table x)) -> ks a = tb_schema (lv_table x) /\ kt a = tb_name (lv_table x)) ->
  filter (mine ks kt x0) (rows_of db sel rows) = if sel (fst s0) x0 then rows s0 (lv_table x0) else [].
Proof.
  intros A db ks kt sel rows s0 x0 P I0 J0 H. unfold rows_of.
  assert (M : forall s x, In s db -> In x (snd s) -> filter (mine ks kt x0) (rows s (lv_table x))
    = if is_key (tb_schema (lv_table x)) (tb_name (lv_table x)) x0 then rows s (lv_table x) else []).
  { intros s x Hs Hx. specialize (H s x). induction (rows s (lv_table x)) as [|a l IH]; cbn [filter].
    - destruct (is_key _ _ _); reflexivity.
    - destruct (H a Hs Hx (or_introl eq_refl)) as (E1 & E2). unfold mine at 1. rewrite E1, E2.
      rewrite IH by (intros; apply H; auto; right; assumption). destruct (is_key _ _ _); reflexivity. }
  assert (Z : forall s x, In s db -> In x (snd s) -> (s, x) <> (s0, x0) -> is_key (tb_schema (lv_table x)) (tb_name (lv_table x)) x0 = false).
  { intros s x Hs Hx N. destruct (is_key _ _ _) eqn:E; [|reflexivity]. exfalso. apply is_key_true in E as (E1 & E2).
    destruct (placed_same db s s0 x x0 P Hs I0 Hx J0 E1 E2). subst. apply N. reflexivity. }
  assert (FN : forall {X Y} (q : Y -> bool) (f : X -> list Y) l, filter q (flat_map f l) = flat_map (fun a => filter q (f a)) l).
  { intros X Y q f l. induction l as [|a l IH]; cbn; [reflexivity|]. rewrite filter_app, IH. reflexivity. }
  assert (NILS : forall {X Y} (f : X -> list Y) l, (forall a, In a l -> f a = []) -> flat_map f l = []).
  { intros X Y f l N. induction l as [|a l IH]; cbn; [reflexivity|]. rewrite (N a (or_introl eq_refl)), IH; [reflexivity|].
    intros b Hb. apply N. right. exact Hb. }
  assert (ONE : forall {X Y} (f : X -> list Y) l a, NoDup l -> In a l -> (forall b, In b l -> b <> a -> f b = []) -> flat_map f l = f a).
  { intros X Y f l a D Ha N. induction l as [|b l IH]; [destruct Ha|]. cbn. inversion D as [|? ? D1 D2]; subst.
    destruct Ha as [->|Ha].
    - rewrite NILS, app_nil_r; [reflexivity|]. intros c Hc. apply N; [right; exact Hc|]. intros ->. contradiction.
    - rewrite N; [|left; reflexivity|intros ->; contradiction]. cbn. apply IH; auto. intros c Hc. apply N. right. exact Hc. }
  destruct P as (P1 & P2). pose proof P2 as P3. rewrite Forall_forall in P3. destruct (P3 _ I0) as (N1 & _).
  rewrite FN. rewrite (ONE _ _ (fun s : live_schema => _) db s0).
  - rewrite FN. rewrite (ONE _ _ (fun x : live_table => _) (snd s0) x0).
    + destruct (sel (fst s0) x0); [|reflexivity]. rewrite M by assumption.
      replace (is_key _ _ _) with true; [reflexivity|]. symmetry. apply is_key_true. auto.
    + eapply NoDup_map_inv. exact N1.
    + exact J0.
    + intros x Hx N. destruct (sel (fst s0) x); [|reflexivity]. rewrite M by assumption. rewrite (Z s0 x); auto. congruence.
  - eapply NoDup_map_inv. exact P1.
  - exact I0.
  - intros s Hs N. rewrite FN. apply NILS. intros x Hx. destruct (sel (fst s) x); [|reflexivity].
    rewrite M by assumption. rewrite (Z s x); auto. congruence.
Qed.
