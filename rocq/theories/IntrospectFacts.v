(** Facts about reading a live database. *)
From Verif Require Import GoStr GoStrFacts ModelCatalog ModelCache SpecCache CacheFacts ModelIntrospect IntrospectShape.

Lemma each_row_app {A S} (f : S -> A -> result S) l1 l2 s :
  each_row f s (l1 ++ l2) = bindr (each_row f s l1) (fun s => each_row f s l2).
Proof.
  revert s. induction l1 as [|a l1 IH]; intro s; [reflexivity|]. cbn. destruct (f s a); cbn; auto.
Qed.
Lemma map_result_ok {A C} (f : A -> result C) h l : (forall a, In a l -> f a = Ok (h a)) -> map_result f l = Ok (map h l).
Proof.
  induction l as [|a l IH]; intro H; [reflexivity|]. cbn. rewrite (H a (or_introl eq_refl)). cbn.
  rewrite IH; [reflexivity|]. intros b Hb. apply H. right. exact Hb.
Qed.

(** ** Tables *)
Definition blank_live (x : live_table) : table := blank_table (lv_table x).
Definition tables_so_far (n : bytes) (l : list live_table) : list schema :=
  match l with [] => [] | _ => [Schema n (map blank_live l) false] end.
Lemma tables_one : forall n l done pre st, st_inv false st -> st_schemas st = pre ++ tables_so_far n done ->
  ~ In n (map sc_name pre) -> NoDup (map (fun x => tb_name (lv_table x)) (done ++ l)) ->
  (forall x, In x (done ++ l) -> tb_schema (lv_table x) = n) ->
  exists st', each_row add_table st (map blank_live l) = Ok st' /\ st_inv false st' /\ st_schemas st' = pre ++ tables_so_far n (done ++ l).
Proof.
  intros n l. induction l as [|x l IH]; intros done pre st I E N D S; cbn [map each_row].
  - exists st. rewrite app_nil_r. auto.
  - assert (Hx : tb_schema (lv_table x) = n) by (apply S, in_or_app; right; left; reflexivity).
    assert (Q : ~ In (tb_name (lv_table x)) (map (fun x => tb_name (lv_table x)) done)).
    { rewrite map_app in D. cbn [map] in D. apply NoDup_remove_2 in D. intro Z. apply D, in_or_app. left. exact Z. }
    unfold add_table at 1. cbn [blank_live blank_table tb_schema]. rewrite Hx.
    destruct (step_ok false st n (CSetTable (blank_live x)) I) as (st1 & R & I1 & W).
    { cbn [careful blank_live blank_table tb_columns tb_constraints tb_indexes tb_ignore tb_name]. repeat (split; [reflexivity|]).
      intros sc Hsc Nsc. rewrite E in Hsc. apply in_app_or in Hsc as [Hsc|Hsc].
      - exfalso. apply N. rewrite <- Nsc. apply in_map. exact Hsc.
      - destruct done as [|y done]; [destruct Hsc|]. destruct Hsc as [<-|[]]. cbn [sc_tables].
        rewrite map_map. exact Q. }
    { discriminate. }
    change (step st n (CSetTable (blank_table (lv_table x)))) with (step st n (CSetTable (blank_live x))). rewrite R. cbn [bindr].
    replace (done ++ x :: l) with ((done ++ [x]) ++ l) in * by (rewrite <- app_assoc; reflexivity).
    apply IH; auto. rewrite W, E.
    assert (NP : forall sc, In sc pre -> live sc_name sc_ignore n sc = false).
    { intros sc Hsc. unfold live. destruct (beqb (sc_name sc) n) eqn:Z; [|reflexivity]. apply beqb_eq in Z.
      exfalso. apply N. rewrite <- Z. apply in_map. exact Hsc. }
    assert (NE : existsb (live sc_name sc_ignore n) pre = false).
    { destruct (existsb _ pre) eqn:Z; [|reflexivity]. apply existsb_exists in Z as (sc & Z1 & Z2). rewrite NP in Z2; auto. }
    unfold after. cbn [fst snd]. unfold put_in. rewrite existsb_app, NE. cbn [orb].
    destruct done as [|y done]; cbn [tables_so_far existsb app].
    + rewrite app_nil_r. f_equal. unfold after_schema, with_tables. cbn. unfold blank_live, blank_table. cbn. rewrite Hx. reflexivity.
    + unfold live at 1. cbn [sc_name sc_ignore]. rewrite beqb_refl. cbn [andb orb negb].
      rewrite map_app. f_equal.
      * rewrite <- (map_id pre) at 2. apply map_ext_in. intros sc Hsc. rewrite NP; auto.
      * cbn [map]. unfold live at 1. cbn [sc_name sc_ignore]. rewrite beqb_refl. cbn [andb negb].
        unfold after_schema, with_tables. cbn [table_of sc_name sc_tables sc_ignore]. do 2 f_equal.
        change (blank_live y :: map blank_live (done ++ [x])) with (map blank_live ((y :: done) ++ [x])).
        rewrite map_app. f_equal. cbn. unfold blank_live, blank_table. cbn. rewrite Hx. reflexivity.
Qed.
Lemma tables_all : forall sel db, placed db ->
  exists st, each_row add_table (new_state []) (rows_of db sel table_rows) = Ok st /\ good_state db sel blank_live st.
Proof.
  intros sel db.
  assert (X : forall l pre st, st_inv false st -> (forall s, In s l -> ~ In (fst s) (map sc_name (st_schemas st))) ->
    st_schemas st = pre -> placed l ->
    exists st', each_row add_table st (rows_of l sel table_rows) = Ok st' /\ st_inv false st' /\ st_schemas st' = pre ++ shape l sel blank_live).
  { induction l as [|s l IH]; intros pre st I N E (P1 & P2).
    - exists st. cbn. rewrite app_nil_r. auto.
    - unfold rows_of. cbn [flat_map]. rewrite each_row_app.
      inversion P1 as [|? ? P3 P4]; subst. inversion P2 as [|? ? P5 P6]; subst. destruct P5 as (P5 & P7). rewrite Forall_forall in P7.
      assert (FE : flat_map (fun x => if sel (fst s) x then table_rows s (lv_table x) else []) (snd s)
                   = map blank_live (filter (sel (fst s)) (snd s))).
      { clear. induction (snd s) as [|x l IH]; [reflexivity|]. cbn [flat_map filter]. rewrite IH. destruct (sel (fst s) x); reflexivity. }
      rewrite FE.
      destruct (tables_one (fst s) (filter (sel (fst s)) (snd s)) [] (st_schemas st) st) as (st1 & R1 & I1 & E1); auto.
      { cbn. rewrite app_nil_r. reflexivity. }
      { apply N. left. reflexivity. }
      { cbn [app]. clear - P5. induction (snd s) as [|x l IH]; [constructor|]. cbn [map] in P5. inversion P5; subst. cbn [filter].
        destruct (sel (fst s) x); [|auto]. cbn [map]. constructor; [|auto]. intro Z. apply H1.
        apply in_map_iff in Z as (y & Z1 & Z2). apply filter_In in Z2 as (Z2 & _). rewrite <- Z1. apply in_map_iff. eauto. }
      { intros x Hx. apply filter_In in Hx as (Hx & _). auto. }
      rewrite R1. cbn [bindr].
      destruct (IH (st_schemas st1) st1) as (st2 & R2 & I2 & E2); auto.
      { intros s2 Hs2. rewrite E1, map_app. intro Z. apply in_app_or in Z as [Z|Z].
        - apply (N s2); [right; exact Hs2|exact Z].
        - unfold tables_so_far in Z. destruct ([] ++ filter (sel (fst s)) (snd s)); [destruct Z|]. destruct Z as [Z|[]]. cbn in Z.
          apply P3. rewrite Z. apply in_map. exact Hs2. }
      { split; assumption. }
      exists st2. split; [exact R2|]. split; [exact I2|]. rewrite E2, E1. rewrite <- app_assoc. f_equal.
      change (shape (s :: l) sel blank_live) with (schema_with sel blank_live s ++ shape l sel blank_live). f_equal.
      unfold schema_with, tables_so_far. cbn [app]. destruct (filter (sel (fst s)) (snd s)); reflexivity. }
  intro P. destruct (X db [] (new_state [])) as (st & R & I & E); auto.
  - apply inv_weaken, new_state_inv. split; constructor.
  - exists st. split; [exact R|]. split; [exact I|exact E].
Qed.

(** ** The objects of a table *)
Lemma not_there {A} (name : A -> bytes) ign n l : ~ In n (map name l) -> existsb (live name ign n) l = false.
Proof.
  intro N. destruct (existsb _ l) eqn:E; [|reflexivity]. exfalso. apply existsb_exists in E as (a & E1 & E2).
  apply N. unfold live in E2. apply andb_true_iff in E2 as (E2 & _). apply beqb_eq in E2. rewrite <- E2. apply in_map. exact E1.
Qed.
Lemma fold_columns : forall l t, Forall (fun x => col_schema x = tb_schema t /\ col_table x = tb_name t) l ->
  NoDup (map col_name (tb_columns t ++ l)) ->
  fold_left (fun t a => after_table (CSetColumn (col_table a) a) t) l t = with_columns t (tb_columns t ++ l).
Proof.
  induction l as [|a l IH]; intros t F D; cbn [fold_left].
  - rewrite app_nil_r. destruct t; reflexivity.
  - inversion F as [|? ? (F1 & F2) F3]; subst. cbn [after_table].
    rewrite put_in_new.
    2:{ apply not_there. rewrite map_app in D. cbn [map] in D. apply NoDup_remove_2 in D. intro Z. apply D, in_or_app. left. exact Z. }
    assert (E : owned_column t a = a) by (destruct a; cbn in *; subst; reflexivity). rewrite E.
    replace (tb_columns t ++ a :: l) with ((tb_columns t ++ [a]) ++ l) in * by (rewrite <- app_assoc; reflexivity).
    rewrite IH; [reflexivity|exact F3|exact D].
Qed.
Lemma fold_constraints : forall l t, Forall (fun x => con_schema x = tb_schema t /\ con_table x = tb_name t) l ->
  NoDup (filter (fun n => negb (beqb n [])) (map con_name (tb_constraints t ++ l))) ->
  fold_left (fun t a => after_table (CSetConstraint (con_table a) a) t) l t = with_constraints t (tb_constraints t ++ l).
Proof.
  induction l as [|a l IH]; intros t F D; cbn [fold_left].
  - rewrite app_nil_r. destruct t; reflexivity.
  - inversion F as [|? ? (F1 & F2) F3]; subst. cbn [after_table].
    assert (E : owned_constraint t a = a) by (destruct a; cbn in *; subst; reflexivity). rewrite E.
    replace (tb_constraints t ++ a :: l) with ((tb_constraints t ++ [a]) ++ l) in * by (rewrite <- app_assoc; reflexivity).
    assert (X : match con_name a with
                | [] => tb_constraints t ++ [a]
                | _ => put_in (live con_name con_ignore (con_name a)) a (fun _ => a) (tb_constraints t)
                end = tb_constraints t ++ [a]).
    { destruct (con_name a) as [|c n] eqn:N; [reflexivity|]. rewrite <- N. apply put_in_new. apply not_there.
      rewrite !map_app, !filter_app in D. intro Z. cbn [map] in D.
      rewrite <- app_assoc in D. cbn [filter app] in D. rewrite N in D. cbn [beqb negb] in D. cbn [app] in D.
      apply NoDup_remove_2 in D. apply D, in_or_app. left. apply filter_In. split; [rewrite <- N; exact Z|reflexivity]. }
    rewrite X. rewrite IH; [reflexivity|exact F3|exact D].
Qed.
Lemma fold_indexes : forall l t, Forall (fun x => ix_schema x = tb_schema t /\ ix_table x = tb_name t) l ->
  NoDup (map ix_name (tb_indexes t ++ l)) ->
  fold_left (fun t a => after_table (CSetIndex (ix_table a) a) t) l t = with_indexes t (tb_indexes t ++ l).
Proof.
  induction l as [|a l IH]; intros t F D; cbn [fold_left].
  - rewrite app_nil_r. destruct t; reflexivity.
  - inversion F as [|? ? (F1 & F2) F3]; subst. cbn [after_table].
    rewrite put_in_new.
    2:{ apply not_there. rewrite map_app in D. cbn [map] in D. apply NoDup_remove_2 in D. intro Z. apply D, in_or_app. left. exact Z. }
    assert (E : owned_index t a = a) by (destruct a; cbn in *; subst; reflexivity). rewrite E.
    replace (tb_indexes t ++ a :: l) with ((tb_indexes t ++ [a]) ++ l) in * by (rewrite <- app_assoc; reflexivity).
    rewrite IH; [reflexivity|exact F3|exact D].
Qed.

(** ** Flags *)
Definition flags (ty n : bytes) (x : column) : column := if beqb (col_name x) n then flag_column ty x else x.
Definition key_flag (c : constraint) (x : column) : column :=
  match con_columns c with
  | [n] => if beqb (con_type c) PRIMARY_KEY || beqb (con_type c) UNIQUE then flags (con_type c) n x else x
  | _ => x
  end.
Lemma flag_column_name ty x : col_name (flag_column ty x) = col_name x /\ col_ignore (flag_column ty x) = col_ignore x.
Proof. destruct x; auto. Qed.
Lemma key_flag_name c x : col_name (key_flag c x) = col_name x /\ col_ignore (key_flag c x) = col_ignore x.
Proof.
  unfold key_flag, flags. destruct (con_columns c) as [|n [|]]; auto. destruct (_ || _); auto. destruct (beqb (col_name x) n); auto.
Qed.
(** Lookups do not depend on the flags. *)
Lemma get_column_flags c t h n : (forall x, col_name (h x) = col_name x /\ col_ignore (h x) = col_ignore x) ->
  get_column c (with_columns t (map h (tb_columns t))) n = get_column c t n.
Proof.
  intro H. unfold get_column, with_columns, at_pos. cbn [tb_columns tb_schema tb_name].
  destruct (ca_columns c _) as [i|]; [|reflexivity]. rewrite nth_error_map. destruct (nth_error (tb_columns t) i); cbn; [|reflexivity].
  rewrite (proj2 (H c0)). reflexivity.
Qed.
Lemma set_flag : forall l i x n h, NoDup (map col_name l) -> nth_error l i = Some x -> col_name x = n ->
  set_nth i (h x) l = map (fun y => if beqb (col_name y) n then h y else y) l.
Proof.
  induction l as [|y l IH]; intros i x n h D E N; [destruct i; discriminate|].
  cbn [map] in D. inversion D as [|? ? D1 D2]; subst. destruct i as [|i]; cbn in E |- *.
  - injection E as <-. rewrite beqb_refl. f_equal. rewrite <- (map_id l) at 1. apply map_ext_in. intros z Hz.
    destruct (beqb (col_name z) (col_name y)) eqn:Q; [|reflexivity]. apply beqb_eq in Q. exfalso. apply D1. rewrite <- Q. apply in_map. exact Hz.
  - rewrite (IH i x (col_name x) h D2 E eq_refl). f_equal.
    destruct (beqb (col_name y) (col_name x)) eqn:Q; [|reflexivity]. apply beqb_eq in Q. exfalso. apply D1. rewrite Q.
    apply in_map. eapply nth_error_In. exact E.
Qed.
Lemma flag_one c t x :
  (forall n, found col_name col_ignore (tb_columns t) n (get_column c t n)) ->
  NoDup (map col_name (tb_columns t)) -> (forall y, In y (tb_columns t) -> col_ignore y = false) ->
  (con_type x = PRIMARY_KEY \/ con_type x = UNIQUE \/ con_type x = FOREIGN_KEY -> incl (con_columns x) (map col_name (tb_columns t))) ->
  (con_type x = FOREIGN_KEY -> con_refcolumns x <> []) ->
  flag c t x = Ok (with_columns t (map (key_flag x) (tb_columns t))).
Proof.
  intros F D NI H1 H2. unfold flag, key_flag.
  assert (IDT : with_columns t (map (fun x => x) (tb_columns t)) = t) by (rewrite map_id; destruct t; reflexivity).
  destruct (con_columns x) as [|n [|]] eqn:E; try (rewrite IDT; reflexivity).
  destruct (beqb (con_type x) PRIMARY_KEY || beqb (con_type x) UNIQUE || beqb (con_type x) FOREIGN_KEY) eqn:Q.
  2:{ apply orb_false_iff in Q as (Q & _). rewrite Q, IDT. reflexivity. }
  assert (Hn : In n (map col_name (tb_columns t))).
  { apply (H1 ltac:(rewrite !orb_true_iff, !beqb_eq in Q; tauto)). left. reflexivity. }
  specialize (F n). destruct (get_column c t n) as [[i|]| |]; cbn in F; try contradiction; cbn [bindr].
  - destruct F as ((a & A1 & A2 & _) & _). destruct (beqb (con_type x) FOREIGN_KEY) eqn:Q2.
    + apply beqb_eq in Q2. destruct (con_refcolumns x) eqn:R; [exfalso; apply H2; auto|].
      replace (beqb (con_type x) PRIMARY_KEY || beqb (con_type x) UNIQUE) with false; [rewrite IDT; reflexivity|].
      rewrite Q2. reflexivity.
    + rewrite orb_false_r in Q. rewrite Q, A1. do 2 f_equal. unfold flags. apply (set_flag _ _ a n); auto.
  - exfalso. apply in_map_iff in Hn as (a & A1 & A2). pose proof (F a A2 A1) as Z. rewrite (NI a A2) in Z. discriminate.
Qed.
Lemma flag_all c : forall cs t,
  (forall n, found col_name col_ignore (tb_columns t) n (get_column c t n)) ->
  NoDup (map col_name (tb_columns t)) -> (forall y, In y (tb_columns t) -> col_ignore y = false) ->
  (forall x, In x cs -> con_type x = PRIMARY_KEY \/ con_type x = UNIQUE \/ con_type x = FOREIGN_KEY -> incl (con_columns x) (map col_name (tb_columns t))) ->
  (forall x, In x cs -> con_type x = FOREIGN_KEY -> con_refcolumns x <> []) ->
  each_row (flag c) t cs = Ok (with_columns t (map (fun y => fold_left (fun y x => key_flag x y) cs y) (tb_columns t))).
Proof.
  induction cs as [|x cs IH]; intros t F D NI H1 H2; cbn [each_row fold_left].
  - rewrite map_id. destruct t; reflexivity.
  - rewrite flag_one; auto; try (apply H1 + apply H2; left; reflexivity). cbn [bindr].
    assert (NM : map col_name (map (key_flag x) (tb_columns t)) = map col_name (tb_columns t)).
    { rewrite map_map. apply map_ext. intro y. apply key_flag_name. }
    rewrite IH.
    + unfold with_columns. cbn. rewrite map_map. reflexivity.
    + intro n. rewrite get_column_flags by apply key_flag_name. cbn [with_columns tb_columns].
      specialize (F n). destruct (get_column c t n) as [[i|]| |]; cbn in F |- *; auto.
      * destruct F as ((a & A1 & A2 & A3) & U). split.
        -- exists (key_flag x a). rewrite nth_error_map, A1. destruct (key_flag_name x a) as (K1 & K2). rewrite K1, K2. auto.
        -- intros j b Hb Nb Ib. rewrite nth_error_map in Hb. destruct (nth_error (tb_columns t) j) as [b'|] eqn:Ej; [|discriminate].
           injection Hb as <-. destruct (key_flag_name x b') as (K1 & K2). rewrite K1 in Nb. rewrite K2 in Ib. eauto.
      * intros a Ha Na. apply in_map_iff in Ha as (b & <- & Hb). destruct (key_flag_name x b) as (K1 & K2). rewrite K2. apply F; auto. congruence.
    + cbn [with_columns tb_columns]. rewrite NM. exact D.
    + cbn [with_columns tb_columns]. intros y Hy. apply in_map_iff in Hy as (b & <- & Hb). destruct (key_flag_name x b) as (_ & K2). rewrite K2. auto.
    + cbn [with_columns tb_columns]. rewrite NM. intros z Hz. apply H1. right. exact Hz.
    + intros z Hz. apply H2. right. exact Hz.
Qed.
