(** The statements of a dump recreate the tables. *)
From Coq Require Import Permutation Lia.
From Verif Require Import GoStr GoStrFacts ModelSq SpecSql SpecInsert SpecTokens SpecDdl ModelCatalog ModelCache ModelDdl ModelDiff ModelDiffSql
  ModelDdlText SpecDdlText SpecDiff DiffLookup SpecApply ApplyFacts ModelDump SpecLoad LoadTexts LoadRun.

(** ** Lists *)
Lemma flat_map_split {A X} (f g : A -> list X) l : Permutation (flat_map (fun a => f a ++ g a) l) (flat_map f l ++ flat_map g l).
Proof.
  induction l as [|a l IH]; [constructor|]. cbn [flat_map]. rewrite <- !app_assoc. apply Permutation_app_head. rewrite IH.
  rewrite !app_assoc. apply Permutation_app_tail, Permutation_app_comm.
Qed.
Lemma flat_map_perm {A X} (f g : A -> list X) l : (forall a, In a l -> Permutation (f a) (g a)) -> Permutation (flat_map f l) (flat_map g l).
Proof. induction l as [|a l IH]; intros H; [constructor|]. cbn [flat_map]. apply Permutation_app; [apply H; left; reflexivity|apply IH; intros b Hb; apply H; right; exact Hb]. Qed.
Lemma flat_map_flat {A X Y} (f : A -> list X) (g : X -> list Y) l : flat_map g (flat_map f l) = flat_map (fun a => flat_map g (f a)) l.
Proof. induction l as [|a l IH]; [reflexivity|]. cbn. rewrite flat_map_app, IH. reflexivity. Qed.
Lemma flat_map_of_map {A X Y} (f : A -> X) (g : X -> list Y) l : flat_map g (map f l) = flat_map (fun a => g (f a)) l.
Proof. induction l as [|a l IH]; [reflexivity|]. cbn. rewrite IH. reflexivity. Qed.
Lemma flat_map_same {A X} (f g : A -> list X) l : (forall a, In a l -> f a = g a) -> flat_map f l = flat_map g l.
Proof. induction l as [|a l IH]; intros H; [reflexivity|]. cbn. rewrite (H a (or_introl eq_refl)), IH; [reflexivity|]. intros b Hb. apply H. right. exact Hb. Qed.
Lemma three_parts {A} (f g h : A -> bool) l :
  (forall a, In a l -> (f a, g a, h a) = (true, false, false) \/ (f a, g a, h a) = (false, true, false) \/ (f a, g a, h a) = (false, false, true)) ->
  Permutation l (filter f l ++ filter g l ++ filter h l).
Proof.
  induction l as [|a l IH]; intros H; [constructor|]. specialize (IH (fun b Hb => H b (or_intror Hb))). cbn [filter].
  destruct (H a (or_introl eq_refl)) as [E|[E|E]]; injection E as -> -> ->.
  - cbn. constructor. exact IH.
  - apply Permutation_cons_app. exact IH.
  - rewrite app_assoc. apply Permutation_cons_app. rewrite <- app_assoc. exact IH.
Qed.
Lemma nodup_left {A} (l l' : list A) : NoDup (l ++ l') -> NoDup l.
Proof. induction l' as [|a l' IH]; [rewrite app_nil_r; auto|]. intros H. apply IH. exact (NoDup_remove_1 _ _ _ H). Qed.
Lemma nodup_right {A} (l l' : list A) : NoDup (l ++ l') -> NoDup l'.
Proof. induction l as [|a l IH]; [auto|]. intros H. apply IH. apply NoDup_cons_iff in H. exact (proj2 H). Qed.
Lemma each_same {A X Y} (f : A -> X -> option X) (g : Y -> X -> option X) (u : A -> Y) l x :
  (forall a, In a l -> forall x, f a x = g (u a) x) -> each_in f l x = each_in g (map u l) x.
Proof.
  unfold each_in. revert x. induction l as [|a l IH]; intros x H; [reflexivity|]. cbn [map fold_left].
  assert (andthen x (fun x => f a x) = andthen x (fun x => g (u a) x)) as Ea by (destruct x as [x|]; [cbn [andthen]; apply H; left; reflexivity|reflexivity]).
  rewrite Ea. apply IH. intros b Hb. apply H. right. exact Hb.
Qed.

Lemma entries_some d q b n : exists k, In k (constraint_entries d q b n).
Proof. destruct d, b; cbn; eexists; left; reflexivity. Qed.

Section Restoring.
Context (d : dialect) (cat : catalog).
Hypothesis D : In d [Postgres; MySQL; SQLServer].
Hypothesis R : restorable d cat.
Notation cur := (ct_current cat).
Notation coll := (ct_collation cat).
Notation tables := (catalog_tables cat).
Notation conmeant := (constraint_meant d cur).

Definition place_of (e : bytes * table) : bytes * bytes := (fst e, tb_name (snd e)).
Definition colmeant (e : bytes * table) : list column_def := map (column_meant d coll false no_reference) (tb_columns (snd e)).
Definition ixmeant (e : bytes * table) (i : index) : index_def := index_meant d (Some (qualify cur (fst e) (tb_name (snd e)))) false i.
Definition base_of (e : bytes * table) : ltable :=
  LTable (place_of e) (colmeant e) (map (fun c => (conmeant c, false)) (first_constraints d (snd e))) [].
Definition key_op (e : bytes * table) (c : constraint) : op := (place_of e, inr (conmeant c)).
Definition index_op (e : bytes * table) (i : index) : op := (place_of e, inl (ixmeant e i)).
Definition index_ops (e : bytes * table) : list op := map (index_op e) (tb_indexes (snd e)).
Definition early_ops (e : bytes * table) : list op := map (key_op e) (filter (added_early d) (tb_constraints (snd e))).
Definition fkey_ops (e : bytes * table) : list op := map (key_op e) (live_fkeys (snd e)).
Definition schema_ops (s : schema) : list op := flat_map early_ops (schema_tables s) ++ flat_map fkey_ops (schema_tables s).
Definition all_ops : list op := flat_map index_ops tables ++ flat_map schema_ops (ct_schemas cat).

Lemma restorable_at e : In e tables -> restorable_table d cat (fst e) (snd e).
Proof. intros H. apply (rs_table _ _ R). destruct e. exact H. Qed.
Lemma schema_given e : In e tables -> fst e <> [].
Proof. intros H. destruct (tables_in cat e H) as (s & Hs & _ & ->). exact (proj1 (rs_schemas _ _ R s Hs)). Qed.
Lemma places_apart : NoDup (map place_of tables).
Proof.
  destruct (rs_tables _ _ R) as (N & T). unfold catalog_tables. revert N T. induction (ct_schemas cat) as [|s l IH]; intros N T; [constructor|].
  cbn [map flat_map] in *. apply NoDup_cons_iff in N as (Nn & N). rewrite map_app.
  assert (H1 : NoDup (map place_of (map (pair (sc_name s)) (sc_tables s)))).
  { rewrite map_map. unfold place_of. cbn [fst snd]. rewrite <- (map_map tb_name (pair (sc_name s))). apply FinFun.Injective_map_NoDup; [intros a b E; congruence|].
    exact (proj1 (T s (or_introl eq_refl))). }
  assert (H2 : forall q, In q (map place_of (map (pair (sc_name s)) (sc_tables s))) -> fst q = sc_name s).
  { intros q Hq. rewrite map_map in Hq. apply in_map_iff in Hq as (t & <- & _). reflexivity. }
  specialize (IH N (fun s' Hs' => T s' (or_intror Hs'))).
  revert H1 H2. induction (map place_of (map (pair (sc_name s)) (sc_tables s))) as [|q m IHm]; intros H1 H2; [exact IH|].
  cbn [app]. apply NoDup_cons_iff in H1 as (H1 & H1'). constructor; [|apply IHm; [exact H1'|intros q' Hq'; apply H2; right; exact Hq']].
  rewrite in_app_iff. intros [Z|Z]; [exact (H1 Z)|]. apply in_map_iff in Z as (e & Ee & Z). apply in_flat_map in Z as (s' & Hs' & Z). apply in_map_iff in Z as (t & <- & _).
  apply Nn. rewrite <- (H2 q (or_introl eq_refl)), <- Ee. cbn. apply in_map. exact Hs'.
Qed.
Lemma same_place e e' : In e tables -> In e' tables -> place_of e = place_of e' -> e = e'.
Proof.
  intros H H' E. pose proof places_apart as N. apply in_split in H as (a & b & Ea). rewrite Ea in *. rewrite map_app in N. cbn [map] in N. apply NoDup_remove_2 in N.
  apply in_app_or in H' as [H'|[H'|H']]; [|symmetry; congruence|]; exfalso; apply N; rewrite E; apply in_or_app; [left|right]; apply in_map; exact H'.
Qed.

(** ** Names *)
Lemma constraint_fact e c : In e tables -> In c (tb_constraints (snd e)) ->
  has_index (kd_body (conmeant c)) = type_has_index (con_type c) /\ name_of d (conmeant c) = Some (con_name c).
Proof.
  intros H Hc. destruct (rt_constraint _ _ _ _ (restorable_at e H) c Hc) as (_ & _ & _ & Nn & W & P & _). split.
  - unfold constraint_meant, body_of. cbn [kd_body]. destruct (wk_type _ _ _ W) as [<-|[<-|[<-|[<-|[<-|[]]]]]]; reflexivity.
  - assert (Ei : if_given (con_name c) = Some (con_name c)) by (destruct (con_name c); [congruence|reflexivity]).
    unfold name_of. destruct D as [<-|[<-|[<-|[]]]]; try exact Ei.
    destruct (wk_type _ _ _ W) as [E|[E|[E|[E|[E|[]]]]]]; unfold constraint_meant, body_of; cbn [kd_body kd_name]; rewrite <- E in *; cbn; try exact Ei.
    f_equal. symmetry. apply P; [reflexivity|symmetry; exact E].
Qed.
Lemma key_op_names e c : In e tables -> In c (tb_constraints (snd e)) ->
  op_names d (key_op e c) = constraint_entries d (place_of e) (type_has_index (con_type c)) (con_name c).
Proof. intros H Hc. destruct (constraint_fact e c H Hc) as (E1 & E2). unfold op_names, key_op, names_of_constraint. cbn [snd fst]. rewrite E1, E2. reflexivity. Qed.
Lemma first_is e : In e tables -> first_constraints d (snd e) = filter (with_table d) (tb_constraints (snd e)).
Proof.
  intros H. pose proof (restorable_at e H) as T. unfold first_constraints, with_table.
  assert (F : forall l, filter (fun c : constraint => beqb (con_type c) PRIMARY_KEY && false) l = []).
  { induction l as [|c l IH]; [reflexivity|]. cbn. rewrite andb_false_r. exact IH. }
  assert (G : d <> Postgres -> firstn 1 (filter (fun c => beqb (con_type c) PRIMARY_KEY && negb (con_ignore c)) (tb_constraints (snd e)))
    = filter (fun c => beqb (con_type c) PRIMARY_KEY && true) (tb_constraints (snd e))).
  { intros _. rewrite (filter_ext_in _ (fun c => beqb (con_type c) PRIMARY_KEY && true)).
    2:{ intros c Hc. rewrite (proj1 (rt_constraint _ _ _ _ T c Hc)). reflexivity. }
    assert (N : NoDup (tb_constraints (snd e))).
    { apply in_split in H as (a & b & Ea). pose proof (rs_names _ _ R) as N. unfold catalog_names in N. rewrite Ea in N. rewrite flat_map_app in N. cbn [flat_map] in N.
      apply nodup_right, nodup_left in N. apply NoDup_cons_iff in N as (_ & N). apply nodup_left in N.
      revert N. clear. generalize (fst e, tb_name (snd e)). intros q. induction (tb_constraints (snd e)) as [|c l IH]; intros N; [constructor|]. cbn [flat_map] in N. constructor.
      - intros Hc. destruct (entries_some d q (type_has_index (con_type c)) (con_name c)) as (k & Hk). apply (nodup_apart _ _ k N Hk). apply in_flat_map. exists c. split; assumption.
      - apply IH. apply nodup_right in N. exact N. }
    pose proof (rt_primary _ _ _ _ T) as P. revert N P. generalize (tb_constraints (snd e)). clear. intros l N P.
    assert (Q : forall a b, In a (filter (fun c => beqb (con_type c) PRIMARY_KEY && true) l) -> In b (filter (fun c => beqb (con_type c) PRIMARY_KEY && true) l) -> a = b).
    { intros a b Ha Hb. apply filter_In in Ha as (Ha & Ea). apply filter_In in Hb as (Hb & Eb). rewrite andb_true_r in Ea, Eb. apply beqb_eq in Ea, Eb. exact (P a b Ha Hb Ea Eb). }
    apply (NoDup_filter (fun c => beqb (con_type c) PRIMARY_KEY && true)) in N. destruct (filter _ l) as [|a [|b m]]; [reflexivity|reflexivity|].
    exfalso. apply NoDup_cons_iff in N as (N & _). apply N. left. apply Q; [right; left; reflexivity|left; reflexivity]. }
  destruct D as [<-|[<-|[<-|[]]]]; cbn [listed_constraints is orb].
  - rewrite F. reflexivity.
  - exact (G ltac:(discriminate)).
  - exact (G ltac:(discriminate)).
Qed.
Lemma constraint_parts e : In e tables ->
  Permutation (tb_constraints (snd e)) (first_constraints d (snd e) ++ filter (added_early d) (tb_constraints (snd e)) ++ live_fkeys (snd e)).
Proof.
  intros H. rewrite (first_is e H). unfold live_fkeys. apply three_parts. intros c Hc.
  destruct (rt_constraint _ _ _ _ (restorable_at e H) c Hc) as (I & _ & _ & _ & W & _). rewrite I. unfold with_table, added_early, is_fkey.
  destruct (beqb_spec (con_type c) PRIMARY_KEY) as [E|N1].
  - rewrite E. destruct D as [<-|[<-|[<-|[]]]]; cbn; auto.
  - destruct (beqb_spec (con_type c) FOREIGN_KEY) as [E|N2]; cbn; auto.
Qed.
Definition table_names (e : bytes * table) : list entry :=
  table_entry d (place_of e) :: flat_map (fun c => constraint_entries d (place_of e) (type_has_index (con_type c)) (con_name c)) (tb_constraints (snd e))
  ++ map (fun i => index_entry d (place_of e) (ix_name i)) (tb_indexes (snd e)).
Lemma table_names_are e : In e tables ->
  Permutation (table_names e) (names_of_table d (base_of e) ++ flat_map (op_names d) (index_ops e ++ early_ops e ++ fkey_ops e)).
Proof.
  intros H. unfold table_names, names_of_table. cbn [base_of lt_place lt_constraints lt_indexes map app]. constructor. rewrite app_nil_r, !flat_map_app.
  set (g := fun c => constraint_entries d (place_of e) (type_has_index (con_type c)) (con_name c)).
  assert (K : forall l, (forall c, In c l -> In c (tb_constraints (snd e))) -> flat_map (op_names d) (map (key_op e) l) = flat_map g l).
  { intros l Hl. rewrite flat_map_of_map. apply flat_map_same. intros c Hc. exact (key_op_names e c H (Hl c Hc)). }
  assert (E1 : flat_map (fun k : constraint_def * bool => names_of_constraint d (place_of e) (fst k)) (map (fun c => (conmeant c, false)) (first_constraints d (snd e))) = flat_map g (first_constraints d (snd e))).
  { rewrite flat_map_of_map. apply flat_map_same. intros c Hc. cbn [fst]. exact (key_op_names e c H (proj1 (first_in d cat D R (snd e) c Hc))). }
  rewrite E1. unfold index_ops, early_ops, fkey_ops. rewrite !K by (intros c Hc; apply filter_In in Hc; exact (proj1 Hc)).
  rewrite flat_map_of_map. cbn [op_names index_op snd fst ixmeant xd_name index_meant]. rewrite (flat_map_one (fun i => index_entry d (place_of e) (ix_name i))).
  rewrite (Permutation_flat_map g (constraint_parts e H)), !flat_map_app.
  rewrite <- !app_assoc. apply Permutation_app_head. rewrite app_assoc. apply Permutation_app_comm.
Qed.
Lemma ops_are : Permutation all_ops (flat_map (fun e => index_ops e ++ early_ops e ++ fkey_ops e) tables).
Proof.
  unfold all_ops. rewrite flat_map_split. apply Permutation_app_head. unfold catalog_tables. rewrite flat_map_flat. apply flat_map_perm. intros s _. unfold schema_ops.
  symmetry. apply flat_map_split.
Qed.
Definition start (S : list bytes) : ldb := LDb S (map base_of tables).
Lemma names_apart S : NoDup (names_in d (start S) ++ flat_map (op_names d) all_ops).
Proof.
  pose proof (rs_names _ _ R) as N. change (catalog_names d cat) with (flat_map table_names tables) in N.
  refine (Permutation_NoDup _ N). rewrite (Permutation_flat_map (op_names d) ops_are), flat_map_flat. unfold start, names_in. cbn [l_tables]. rewrite flat_map_of_map.
  rewrite <- flat_map_split. apply flat_map_perm. intros e He. rewrite (table_names_are e He), flat_map_app, !flat_map_app. reflexivity.
Qed.

(** ** The tables *)
Lemma names_of_columns e : map cd_name (colmeant e) = map col_name (tb_columns (snd e)).
Proof. unfold colmeant. rewrite map_map. reflexivity. Qed.
Lemma find_base S l e : In e tables -> find_table (state (start S) l) (place_of e) = Some (grow l (base_of e)).
Proof.
  intros H. rewrite find_state. unfold find_table, start. cbn [l_tables].
  assert (E : find (fun t => qeqb (lt_place t) (place_of e)) (map base_of tables) = Some (base_of e)); [|rewrite E; reflexivity].
  pose proof same_place as U. revert H U. generalize tables. intros m H U.
  assert (G : forall k, (forall x, In x k -> In x m) -> In e k -> find (fun t => qeqb (lt_place t) (place_of e)) (map base_of k) = Some (base_of e)).
  { induction k as [|x k IH]; intros Hk Hin; [destruct Hin|]. cbn [map find base_of lt_place]. destruct (qeqb_spec (place_of x) (place_of e)) as [E|N].
    - rewrite (U x e (Hk x (or_introl eq_refl)) H E). reflexivity.
    - destruct Hin as [->|Hin]; [congruence|]. apply IH; [intros y Hy; apply Hk; right; exact Hy|exact Hin]. }
  exact (G m (fun x Hx => Hx) H).
Qed.
Lemma has_all_among l e m : among (snd e) m -> has_all (grow l (base_of e)) m = true.
Proof. intros H. apply forallb_forall. intros n Hn. apply bmem_In. cbn [grow base_of lt_columns]. rewrite names_of_columns. exact (H n Hn). Qed.
Lemma in_parts cols : forall desc cl p, In p (parts_of d cols desc cl) -> exists c, In c cols /\ pt_element p = if is_expression c then EExpr (inner (text d c)) else EName c.
Proof.
  induction cols as [|c cols IH]; intros desc cl p Hp; [destruct Hp|]. destruct Hp as [<-|Hp]; [exists c; split; [left; reflexivity|reflexivity]|].
  destruct (IH _ _ _ Hp) as (c' & Hc & E). exists c'. split; [right; exact Hc|exact E].
Qed.
Lemma accepted_index S l e i : In e tables -> In i (tb_indexes (snd e)) -> accepted d cur (state (start S) l) (index_op e i).
Proof.
  intros H Hi. exists (grow l (base_of e)). split; [exact (find_base S l e H)|]. cbn [index_op snd]. unfold can_index.
  destruct (rt_index _ _ _ _ (restorable_at e H) i Hi) as (_ & W & C & I). apply andb_true_intro. split; [apply andb_true_intro; split|].
  - cbn [ixmeant index_meant xd_elements]. pose proof (wx_columns _ _ W) as N. destruct (ix_columns i); [congruence|reflexivity].
  - apply forallb_forall. intros p Hp. cbn [ixmeant index_meant xd_elements] in Hp. apply in_parts in Hp as (c & Hc & E). unfold plain_element. rewrite E.
    destruct (is_expression c) eqn:Ec; [reflexivity|]. apply bmem_In. cbn [grow base_of lt_columns]. rewrite names_of_columns. destruct (C c Hc) as [Z|Z]; [congruence|exact Z].
  - apply has_all_among. cbn [ixmeant index_meant xd_include]. destruct d; try exact I; intros n [].
Qed.

(** Where an operation comes from. *)
Lemma op_from o : In o all_ops -> (exists e i, In e tables /\ In i (tb_indexes (snd e)) /\ o = index_op e i) \/ (exists e c, In e tables /\ In c (tb_constraints (snd e)) /\ o = key_op e c).
Proof.
  intros H. apply (Permutation_in _ ops_are) in H. apply in_flat_map in H as (e & He & H). rewrite !in_app_iff in H. destruct H as [H|[H|H]]; apply in_map_iff in H as (a & <- & H).
  - left. exists e, a. auto.
  - right. apply filter_In in H as (H & _). exists e, a. auto.
  - right. apply filter_In in H as (H & _). exists e, a. auto.
Qed.
Lemma primary_body c e : In e tables -> In c (tb_constraints (snd e)) -> is_primary (kd_body (conmeant c)) = true -> primary c.
Proof.
  intros H Hc. destruct (rt_constraint _ _ _ _ (restorable_at e H) c Hc) as (_ & _ & _ & _ & W & _). unfold constraint_meant, body_of. cbn [kd_body].
  destruct (wk_type _ _ _ W) as [E|[E|[E|[E|[E|[]]]]]]; rewrite <- E; cbn; try discriminate. intros _. symmetry. exact E.
Qed.
Lemma accepted_key S l e c : In e tables -> In c (tb_constraints (snd e)) -> ~ In c (first_constraints d (snd e)) -> incl l all_ops -> ~ In (key_op e c) l ->
  can_target d cur (state (start S) l) (kd_body (conmeant c)) = true ->
  accepted d cur (state (start S) l) (key_op e c).
Proof.
  intros H Hc Nf L Nl T. exists (grow l (base_of e)). split; [exact (find_base S l e H)|]. cbn [key_op snd]. split; [rewrite (proj2 (constraint_fact e c H Hc)); discriminate|].
  pose proof (restorable_at e H) as Rt. destruct (rt_constraint _ _ _ _ Rt c Hc) as (_ & _ & _ & _ & W & _ & A).
  unfold can_have. rewrite T, andb_true_r. apply andb_true_intro. split.
  - unfold constraint_meant, body_of. cbn [kd_body]. pose proof (wk_columns _ _ _ W) as C.
    destruct (wk_type _ _ _ W) as [E|[E|[E|[E|[E|[]]]]]]; rewrite <- E; cbn [key_columns beqb]; try reflexivity;
      destruct (C ltac:(rewrite <- E; discriminate) ltac:(rewrite <- E; discriminate)) as (Cn & _);
      cbn; destruct (con_columns c) as [|n m] eqn:Ec; try congruence; rewrite <- Ec; apply has_all_among; rewrite <- Ec in A; apply A; unfold unique_key, foreign; rewrite <- E; auto.
  - apply negb_true_iff. destruct (is_primary (kd_body (conmeant c))) eqn:P; [|reflexivity]. cbn [andb]. apply (primary_body c e H Hc) in P.
    destruct (existsb _ (lt_constraints (grow l (base_of e)))) eqn:X; [|reflexivity]. exfalso. apply existsb_exists in X as ([k b] & Hk & X). cbn [fst] in X.
    cbn [grow base_of lt_constraints lt_place] in Hk. apply in_app_or in Hk as [Hk|Hk].
    + apply in_map_iff in Hk as (c' & Ek & Hc'). injection Ek as <- _. destruct (first_in d cat D R _ _ Hc') as (Hc1 & P'). apply Nf. rewrite (rt_primary _ _ _ _ Rt c c' Hc Hc1 P P'). exact Hc'.
    + apply in_keys_at in Hk as (_ & Hk). cbn [fst] in Hk. destruct (op_from _ (L _ Hk)) as [(e' & i & _ & _ & Eo)|(e' & c' & He' & Hc' & Eo)]; [discriminate Eo|].
      injection Eo as E1 E2 E3. assert (place_of e = place_of e') as Ep by (unfold place_of; congruence). apply (same_place e e' H He') in Ep. subst e'.
      rewrite E3 in X. apply (primary_body c' e H Hc') in X. rewrite E3 in Hk. rewrite (rt_primary _ _ _ _ Rt c c' Hc Hc' P X) in Nl. exact (Nl Hk).
Qed.
End Restoring.
