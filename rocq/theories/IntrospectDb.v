(** Reading a whole database. *)
From Verif Require Import GoStr GoStrFacts ModelCatalog ModelDdl ModelWipe ModelCache SpecCache CacheFacts ModelIntrospect
  IntrospectShape IntrospectFacts SpecArgs SpecLive IntrospectRead.

(** ** What is selected *)
Lemma some_names_all l : ~ In [] l -> some_names l = l.
Proof.
  induction l as [|a l IH]; intro N; [reflexivity|]. unfold some_names in *. cbn [filter].
  destruct (beqb a []) eqn:E; [apply beqb_eq in E; exfalso; apply N; left; exact E|]. cbn [negb]. rewrite IH; [reflexivity|].
  intro Z. apply N. right. exact Z.
Qed.
Lemma some_names_mem l n : (In [] l -> n <> []) -> bmem n (some_names l) = bmem n l.
Proof.
  induction l as [|a l IH]; intro N; [reflexivity|]. unfold some_names in *. cbn [filter bmem existsb].
  assert (N' : In [] l -> n <> []) by (intro Z; apply N; right; exact Z). specialize (IH N'). unfold bmem in *. cbn [existsb].
  destruct (beqb a []) eqn:E; cbn [negb].
  - rewrite IH. apply beqb_eq in E. subst a. replace (beqb n []) with false; [reflexivity|]. symmetry. apply beqb_neq. apply N. left. reflexivity.
  - cbn [existsb]. rewrite IH. reflexivity.
Qed.
Lemma listed_named l ex n : l = [] \/ ex = [] -> (In [] (l ++ ex) -> n <> []) -> listed l ex n = chosen l ex n.
Proof.
  intros B N. unfold listed, chosen. destruct l as [|a l]; destruct ex as [|b ex]; try reflexivity.
  - rewrite some_names_mem by exact N. reflexivity.
  - rewrite app_nil_r in N. rewrite some_names_mem by exact N. cbn [bmem existsb negb]. rewrite andb_true_r. reflexivity.
  - destruct B; discriminate.
Qed.
Lemma listed_chosen l ex n : clear_list l ex -> listed l ex n = chosen l ex n.
Proof. intros (B & N1 & N2). apply listed_named; [exact B|]. intro Z. apply in_app_or in Z. tauto. Qed.
Lemma bad_list_clear l ex : clear_list l ex -> bad_list l ex = false.
Proof. intros (B & N1 & N2). unfold bad_list. rewrite !some_names_all by assumption. destruct l, ex; reflexivity. Qed.
Lemma like_clear p n : no_wildcard p n -> like_any p n = has_prefix n (p ++ B"_").
Proof.
  intro W. unfold like_any. destruct (has_prefix n p) eqn:E; cbn [andb].
  - destruct (W E) as [->|Q].
    + rewrite Nat.ltb_irrefl. symmetry. destruct (has_prefix p (p ++ B"_")) eqn:Z; [|reflexivity]. apply has_prefix_iff in Z as (r & Z).
      apply (f_equal (@List.length ascii)) in Z. rewrite !app_length in Z. cbn in Z. lia.
    + rewrite Q. apply has_prefix_iff in Q as (r & ->). apply Nat.ltb_lt. rewrite !app_length. cbn. lia.
  - symmetry. destruct (has_prefix n (p ++ B"_")) eqn:Z; [|reflexivity]. apply has_prefix_iff in Z as (r & ->).
    rewrite <- app_assoc in E. rewrite has_prefix_app in E. discriminate.
Qed.
Lemma not_system d s t : d <> Other -> clear_names d s t -> schema_listed d s && relation_listed d t = negb (system d s t).
Proof.
  intros O C. destruct d; try congruence; unfold schema_listed, relation_listed, system; cbn [clear_names] in C.
  - rewrite like_clear by exact C. reflexivity.
  - rewrite like_clear by exact C. rewrite andb_true_r, <- negb_orb. reflexivity.
  - rewrite andb_true_r. reflexivity.
  - rewrite !like_clear by apply C. rewrite <- negb_orb. reflexivity.
Qed.
Lemma scope_wanted d f db s x : d <> Other -> clear_choice d f db -> In s db -> In x (snd s) -> clear_names d (fst s) (tb_name (lv_table x)) ->
  in_scope d f (fst s) (tb_name (lv_table x)) = wanted d f (fst s) (tb_name (lv_table x)).
Proof.
  intros O C Hs Hx N. unfold in_scope, wanted. rewrite not_system by assumption.
  destruct d; try congruence; cbn [clear_choice] in C; try (destruct C as (C1 & C2); rewrite !listed_chosen by assumption; reflexivity).
  destruct C as (C1 & C2). rewrite (listed_named (f_tables f) (f_extables f)); [reflexivity|exact C1|]. intro Z. exact (C2 Z s x Hs Hx).
Qed.

(** ** Flags *)
Definition soleb (ty : bytes) (n : bytes) (c : constraint) : bool :=
  beqb (con_type c) ty && match con_columns c with [m] => beqb m n | _ => false end.
Definition with_flags (p u : bool) (x : column) : column :=
  Column (col_schema x) (col_table x) (col_name x) (col_type x) (col_length x) (col_precision x) (col_scale x)
    (col_domain x) (col_enum x) (col_notnull x) (p || col_pkey x) (u || col_unique x)
    (col_autoincrement x) (col_identity x) (col_default x) (col_onupdate x) (col_generated x) (col_expr x) (col_stored x)
    (col_collation x) (col_ignore x).
Lemma key_flag_is c x : key_flag c x = with_flags (soleb PRIMARY_KEY (col_name x) c) (soleb UNIQUE (col_name x) c) x.
Proof.
  unfold key_flag, flags, soleb. destruct (con_columns c) as [|n [|]]; rewrite ?andb_false_r; try (destruct x; reflexivity).
  rewrite (beqb_sym n). destruct (beqb (con_type c) PRIMARY_KEY) eqn:E1; destruct (beqb (con_type c) UNIQUE) eqn:E2; cbn [orb andb];
    destruct (beqb (col_name x) n); try (destruct x; reflexivity); unfold flag_column; rewrite E1, E2; destruct x; reflexivity.
Qed.
Lemma fold_flags cs : forall x, fold_left (fun y c => key_flag c y) cs x
  = with_flags (existsb (soleb PRIMARY_KEY (col_name x)) cs) (existsb (soleb UNIQUE (col_name x)) cs) x.
Proof.
  induction cs as [|c cs IH]; intro x; cbn [fold_left existsb]; [destruct x; reflexivity|].
  rewrite IH, key_flag_is. unfold with_flags. cbn. rewrite !orb_assoc.
  rewrite (orb_comm (existsb (soleb PRIMARY_KEY (col_name x)) cs)), (orb_comm (existsb (soleb UNIQUE (col_name x)) cs)). reflexivity.
Qed.
Lemma want_flags db t x : col_pkey x = false -> col_unique x = false ->
  fold_left (fun y c => key_flag c y) (map (want_constraint db) (tb_constraints t)) x = want_column t x.
Proof.
  intros P U. rewrite fold_flags. unfold with_flags, want_column, sole. rewrite P, U, !orb_false_r.
  assert (E : forall ty, existsb (soleb ty (col_name x)) (map (want_constraint db) (tb_constraints t))
    = existsb (fun c => beqb (con_type c) ty && match con_columns c with [m] => beqb m (col_name x) | _ => false end) (tb_constraints t)).
  { intro ty. induction (tb_constraints t) as [|c l IH]; [reflexivity|]. cbn [map existsb]. rewrite IH. reflexivity. }
  rewrite !E. reflexivity.
Qed.

Lemma map_result_oks {A} (l : list A) : map_result (fun r => r) (map Ok l) = Ok l.
Proof. induction l as [|a l IH]; [reflexivity|]. cbn. rewrite IH. reflexivity. Qed.
Lemma in_rows {A} db sel (rows : live_schema -> table -> list A) a : In a (rows_of db sel rows) ->
  exists s x, In s db /\ In x (snd s) /\ sel (fst s) x = true /\ In a (rows s (lv_table x)).
Proof.
  intro H. unfold rows_of in H. apply in_flat_map in H as (s & H1 & H2). apply in_flat_map in H2 as (x & H3 & H4).
  exists s, x. destruct (sel (fst s) x) eqn:E; [auto|destruct H4].
Qed.

Section Read.
Variable d : dialect.
Variable f : choice.
Variable db : database.
Hypothesis OK : database_ok d db.
Hypothesis CL : clear d f db.

Let sel := table_listed d f.
Lemma db_placed : placed db.
Proof.
  destruct OK as (_ & N & F). split; [exact N|]. eapply Forall_impl; [|exact F]. intros s (_ & S1 & S2 & _).
  split; [exact S1|]. eapply Forall_impl; [|exact S2]. intros x X. apply X.
Qed.
Lemma tab_ok s x : In s db -> In x (snd s) -> table_ok d (fst s) (lv_table x) /\ clear_table d db (fst s) x.
Proof.
  intros Hs Hx. destruct OK as (_ & _ & F). destruct CL as (_ & C). rewrite Forall_forall in F, C.
  destruct (F s Hs) as (_ & _ & S2 & _). destruct (C s Hs) as (C2 & _). rewrite Forall_forall in S2, C2. auto.
Qed.
Lemma not_other : d <> Other. Proof. apply OK. Qed.

Lemma key_rows_at s x : In s db -> In x (snd s) -> key_rows d s (lv_table x) = map (want_constraint db) (tb_constraints (lv_table x)).
Proof.
  intros Hs Hx. destruct (tab_ok s x Hs Hx) as (T & C). destruct OK as (O & _ & F). destruct CL as (_ & G). rewrite Forall_forall in F, G.
  apply key_rows_id; auto; [apply in_map; exact Hx|apply C].
Qed.
Lemma index_rows_at s x : In s db -> In x (snd s) -> index_rows d db s (lv_table x) = map Ok (tb_indexes (lv_table x)).
Proof.
  intros Hs Hx. destruct (tab_ok s x Hs Hx) as ((_ & _ & _ & _ & _ & _ & _ & T) & (_ & _ & _ & _ & C)). unfold index_rows.
  rewrite Forall_forall in T, C.
  assert (L : filter (index_listed d db) (tb_indexes (lv_table x)) = tb_indexes (lv_table x)).
  { assert (H : forall i, In i (tb_indexes (lv_table x)) -> index_listed d db i = true).
    { intros i Hi. destruct (C i Hi) as (_ & N). unfold index_listed.
      assert (Z : d = Postgres \/ d = MySQL -> negb (bmem (ix_name i) (all_constraint_names db)) = true).
      { intro D. apply negb_true_iff, bmem_not_In. intro Q. unfold all_constraint_names in Q. apply in_map_iff in Q as (c & Q1 & Q2).
        apply in_flat_map in Q2 as (s' & Q2 & Q3). apply (N D s' c); auto. }
      destruct d; auto. }
    induction (tb_indexes (lv_table x)) as [|i l IH]; [reflexivity|]. cbn [filter]. rewrite (H i (or_introl eq_refl)). f_equal.
    apply IH; intros j Hj; [apply T|apply C|apply H]; right; exact Hj. }
  rewrite L. apply map_ext_in. intros i Hi. eapply index_read_id; [exact not_other|apply T; exact Hi|apply C; exact Hi].
Qed.

Lemma selected_listed s x : In s db -> In x (snd s) -> sel (fst s) x = true ->
  columns_listed d f (fst s) x = true /\ keys_listed d f (fst s) x = true.
Proof.
  intros Hs Hx S. destruct (tab_ok s x Hs Hx) as (_ & (_ & _ & Q & _)). unfold sel, table_listed in S. apply andb_true_iff in S as (S1 & S2).
  unfold columns_listed, keys_listed, unquoted. rewrite S1, Q. cbn [negb].
  destruct d; rewrite ?orb_true_r, ?orb_false_r in *; cbn [andb]; auto.
Qed.
Lemma keys_selected s x : In s db -> In x (snd s) -> keys_listed d f (fst s) x = true -> tb_constraints (lv_table x) <> [] -> sel (fst s) x = true.
Proof.
  intros Hs Hx S N. destruct (tab_ok s x Hs Hx) as (_ & (_ & Q & _)). destruct Q as [Q|Q]; [|congruence].
  unfold keys_listed in S. apply andb_true_iff in S as (S1 & _). unfold sel, table_listed. rewrite S1, Q. reflexivity.
Qed.

(** The tables after each query. *)
Definition ccall (a : column) : call := CSetColumn (col_table a) a.
Definition kcall (a : constraint) : call := CSetConstraint (con_table a) a.
Definition icall (a : index) : call := CSetIndex (ix_table a) a.
Definition g1 := fold_rows col_schema col_table ccall (rows_of db (columns_listed d f) column_rows) blank_live.
Definition g2 := fold_rows con_schema con_table kcall (rows_of db (keys_listed d f) (key_rows d)) g1.
Definition plain_indexes (s : live_schema) (t : table) : list index := tb_indexes t.
Definition g3 := fold_rows ix_schema ix_table icall (rows_of db (keys_listed d f) plain_indexes) g2.
Definition read_table (x : live_table) : table :=
  let t := lv_table x in
  Table (tb_schema t) (tb_name t) (tb_sql t) (tb_virtual t) (tb_columns t) (map (want_constraint db) (tb_constraints t)) (tb_indexes t) false.

Lemma g3_read x : selected db sel x -> g3 x = read_table x.
Proof.
  intros (s & Hs & Hx & S). destruct (selected_listed s x Hs Hx S) as (L1 & L2).
  destruct (tab_ok s x Hs Hx) as ((T1 & T2 & T3 & T4 & T5 & T6 & T7 & T8) & _).
  assert (E1 : g1 x = with_columns (blank_live x) (tb_columns (lv_table x))).
  { unfold g1, fold_rows. rewrite (rows_own db col_schema col_table (columns_listed d f) column_rows s x db_placed Hs Hx).
    - rewrite L1. unfold column_rows, ccall. rewrite fold_columns; [reflexivity| |exact T3].
      eapply Forall_impl; [|exact T6]. intros a (A1 & A2 & _). auto.
    - intros s' x' a Hs' Hx' Ha. destruct (tab_ok s' x' Hs' Hx') as ((_ & _ & _ & _ & _ & F & _) & _).
      rewrite Forall_forall in F. destruct (F a Ha) as (A1 & A2 & _). auto. }
  assert (E2 : g2 x = with_constraints (g1 x) (map (want_constraint db) (tb_constraints (lv_table x)))).
  { unfold g2, fold_rows. rewrite (rows_own db con_schema con_table (keys_listed d f) (key_rows d) s x db_placed Hs Hx).
    - rewrite L2, key_rows_at by assumption. unfold kcall. rewrite fold_constraints.
      + rewrite E1. reflexivity.
      + rewrite E1. cbn [with_columns tb_schema tb_name blank_live blank_table]. apply Forall_forall. intros a Ha.
        apply in_map_iff in Ha as (c & <- & Hc). cbn. rewrite Forall_forall in T7. destruct (T7 c Hc) as (A1 & A2 & _). auto.
      + rewrite E1. cbn [with_columns tb_constraints blank_live blank_table app]. rewrite map_map. cbn [want_constraint con_name].
        rewrite Forall_forall in T7. destruct CL as (_ & C). rewrite Forall_forall in C. destruct (C s Hs) as (_ & C3).
        assert (D : d = SQLite \/ NoDup (map con_name (tb_constraints (lv_table x)))).
        { destruct d; auto. right. specialize (C3 eq_refl).
          assert (I : incl (tb_constraints (lv_table x)) (schema_constraints s)).
          { intros c Hc. unfold schema_constraints. apply in_flat_map. eauto. }
          clear - T5 C3 I. induction (tb_constraints (lv_table x)) as [|c l IH]; [constructor|]. cbn [map] in *.
          inversion T5 as [|? ? D1 D2]; subst. constructor.
          - intro Z. apply in_map_iff in Z as (o & Z1 & Z2). apply D1. apply in_map_iff. exists o. split; [|exact Z2].
            rewrite Z1. f_equal. apply C3; [apply I; right; exact Z2|apply I; left; reflexivity|exact Z1].
          - apply IH; [exact D2|]. intros y Hy. apply I. right. exact Hy. }
        destruct D as [D|D].
        * assert (Z : filter (fun n => negb (beqb n [])) (map con_name (tb_constraints (lv_table x))) = []).
          { clear - T7 D. induction (tb_constraints (lv_table x)) as [|c l IH]; [reflexivity|]. cbn [map filter].
            destruct (T7 c (or_introl eq_refl)) as (_ & _ & _ & N & _). rewrite (proj2 N D). cbn. apply IH. intros y Hy. apply T7. right. exact Hy. }
          change (NoDup (filter (fun n => negb (beqb n [])) (map con_name (tb_constraints (lv_table x))))). rewrite Z. constructor.
        * apply NoDup_filter. exact D.
    - intros s' x' a Hs' Hx' Ha. rewrite key_rows_at in Ha by assumption. apply in_map_iff in Ha as (c & <- & Hc). cbn.
      destruct (tab_ok s' x' Hs' Hx') as ((_ & _ & _ & _ & _ & _ & F & _) & _). rewrite Forall_forall in F. destruct (F c Hc) as (A1 & A2 & _). auto. }
  unfold g3, fold_rows. rewrite (rows_own db ix_schema ix_table (keys_listed d f) plain_indexes s x db_placed Hs Hx).
  - rewrite L2. unfold plain_indexes, icall. rewrite fold_indexes.
    + rewrite E2, E1. reflexivity.
    + rewrite E2, E1. eapply Forall_impl; [|exact T8]. intros a (A1 & A2 & _). auto.
    + rewrite E2, E1. exact T4.
  - intros s' x' a Hs' Hx' Ha. destruct (tab_ok s' x' Hs' Hx') as ((_ & _ & _ & _ & _ & _ & _ & F) & _).
    rewrite Forall_forall in F. destruct (F a Ha) as (A1 & A2 & _). auto.
Qed.

(** The state after all queries. *)
Lemma blank_keeps : keeps blank_live.
Proof. intro x. auto. Qed.
Lemma read_state : exists st1 st2 st3 st4,
  each_row add_table (new_state []) (rows_of db sel table_rows) = Ok st1
  /\ each_row add_column st1 (rows_of db (columns_listed d f) column_rows) = Ok st2
  /\ each_row add_constraint st2 (rows_of db (keys_listed d f) (key_rows d)) = Ok st3
  /\ each_row add_index st3 (rows_of db (keys_listed d f) plain_indexes) = Ok st4
  /\ good_state db sel read_table st4.
Proof.
  pose proof db_placed as P.
  destruct (tables_all sel db P) as (st1 & R1 & G1).
  destruct (rows_good db sel col_schema col_table ccall add_column (rows_of db (columns_listed d f) column_rows) blank_live st1) as (st2 & R2 & G2 & K2).
  { intros g st a K G Ha. apply if_table_good; auto. exact I. }
  { exact blank_keeps. }
  { exact G1. }
  destruct (rows_good db sel con_schema con_table kcall add_constraint (rows_of db (keys_listed d f) (key_rows d)) g1 st2) as (st3 & R3 & G3 & K3).
  { intros g st a K G Ha. apply in_rows in Ha as (s & x & Hs & Hx & S & Ha). rewrite key_rows_at in Ha by assumption.
    assert (S' : sel (fst s) x = true) by (apply keys_selected; auto; intro Z; rewrite Z in Ha; destruct Ha).
    apply in_map_iff in Ha as (c & <- & Hc).
    destruct (tab_ok s x Hs Hx) as ((T1 & _ & _ & _ & _ & _ & F & _) & _). rewrite Forall_forall in F. destruct (F c Hc) as (A1 & A2 & _).
    assert (SX : selected db sel x) by (exists s; auto).
    unfold add_constraint. cbn [want_constraint con_schema con_table].
    destruct G as (I & E). pose proof (inv_right_lookups _ _ I) as (L1 & _). specialize (L1 (con_schema c)).
    destruct (get_schema st (con_schema c)) as [[i|]| |]; cbn in L1; try contradiction; cbn [bindr].
    - apply (step_good db sel P g st); auto; [split; assumption|exact Logic.I|].
      exists x. split; [exact SX|]. apply is_key_true. auto.
    - exfalso. assert (Y : In (Schema (fst s) (map g (filter (sel (fst s)) (snd s))) false) (st_schemas st)).
      { rewrite E. apply shape_in; [exact Hs|]. intro N.
        assert (Z : In x (filter (sel (fst s)) (snd s))) by (apply filter_In; auto). rewrite N in Z. destruct Z. }
      apply L1 in Y; [discriminate Y|]. cbn. congruence. }
  { exact K2. }
  { exact G2. }
  destruct (rows_good db sel ix_schema ix_table icall add_index (rows_of db (keys_listed d f) plain_indexes) g2 st3) as (st4 & R4 & G4 & K4).
  { intros g st a K G Ha. apply if_table_good; auto. exact I. }
  { exact K3. }
  { exact G3. }
  exists st1, st2, st3, st4. repeat (split; [assumption|]).
  destruct G4 as (I4 & E4). split; [exact I4|]. rewrite E4. apply shape_ext. exact g3_read.
Qed.

Lemma index_queries : rows_of db (keys_listed d f) (index_rows d db) = map Ok (rows_of db (keys_listed d f) plain_indexes).
Proof.
  unfold rows_of. rewrite !flat_map_concat_map, concat_map, map_map. f_equal. apply map_ext_in. intros s Hs.
  rewrite !flat_map_concat_map, concat_map, map_map. f_equal. apply map_ext_in. intros x Hx.
  destruct (keys_listed d f (fst s) x); [|reflexivity]. apply index_rows_at; assumption.
Qed.

Theorem read_is_want : read_database d f db = Ok (want d f db).
Proof.
  destruct CL as (CF & _). unfold read_database.
  replace (match d with Other => true | _ => bad_filter d f end) with false.
  2:{ pose proof not_other as O. unfold clear_choice in CF.
      destruct d; try congruence; unfold bad_filter; try reflexivity; destruct CF as (C1 & C2); rewrite !bad_list_clear by assumption; reflexivity. }
  destruct read_state as (st1 & st2 & st3 & st4 & R1 & R2 & R3 & R4 & (I4 & E4)).
  fold sel. rewrite R1. cbn [bindr]. rewrite R2. cbn [bindr]. rewrite R3. cbn [bindr].
  rewrite index_queries, map_result_oks. cbn [bindr]. rewrite R4. cbn [bindr]. rewrite E4.
  pose proof (inv_right_lookups _ _ I4) as (_ & L2). rewrite E4 in L2.
  set (hh := fun tb => with_columns tb (map (fun y => fold_left (fun y x => key_flag x y) (tb_constraints tb) y) (tb_columns tb))).
  rewrite (map_result_ok _ (fun sc => with_tables sc (map hh (sc_tables sc)))).
  - f_equal. unfold shape, want. rewrite !flat_map_concat_map, concat_map, map_map. f_equal. apply map_ext_in. intros s Hs.
    unfold schema_with, want_schema.
    assert (W : filter (is_wanted d f (fst s)) (snd s) = filter (sel (fst s)) (snd s)).
    { apply filter_ext_in. intros x Hx. destruct (tab_ok s x Hs Hx) as (_ & (N & _)). unfold is_wanted, sel, table_listed.
      rewrite (scope_wanted d f db s x not_other CF Hs Hx N). reflexivity. }
    rewrite W. destruct (filter (sel (fst s)) (snd s)) as [|y l] eqn:F; [reflexivity|]. rewrite <- F.
    cbn [map with_tables sc_name sc_tables sc_ignore]. unfold with_tables. cbn [sc_name sc_tables sc_ignore]. do 2 f_equal. rewrite map_map.
    apply map_ext_in. intros x Hx. apply filter_In in Hx as (Hx & _). destruct (tab_ok s x Hs Hx) as ((_ & _ & _ & _ & _ & T6 & _) & _).
    unfold hh, read_table, with_columns, want_table.
    cbn [tb_schema tb_name tb_sql tb_virtual tb_columns tb_constraints tb_indexes tb_ignore]. f_equal.
    apply map_ext_in. intros c Hc. rewrite Forall_forall in T6. destruct (T6 c Hc) as (_ & _ & _ & U1 & U2 & _). apply want_flags; assumption.
  - intros sc Hsc. destruct (L2 sc Hsc) as (_ & L3). apply in_shape in Hsc as (s & Hs & ->). cbn [sc_tables] in L3. unfold flag_schema. cbn [sc_tables].
    rewrite (map_result_ok _ hh); [reflexivity|]. intros tb Htb. destruct (L3 tb Htb) as (L4 & _).
    apply in_map_iff in Htb as (x & <- & Hx). apply filter_In in Hx as (Hx & S).
    destruct (tab_ok s x Hs Hx) as ((T1 & T2 & T3 & T4 & T5 & T6 & T7 & T8) & (_ & _ & _ & C4 & _)).
    rewrite Forall_forall in T6, T7, C4.
    unfold flag_table, hh. apply flag_all.
    + exact L4.
    + exact T3.
    + intros c Hc. destruct (T6 c Hc) as (_ & _ & _ & _ & _ & Z). exact Z.
    + cbn [read_table tb_constraints]. intros c Hc. apply in_map_iff in Hc as (k & <- & Hk). cbn [want_constraint con_type con_columns].
      destruct (T7 k Hk) as (_ & _ & _ & _ & _ & _ & Z & _). exact Z.
    + cbn [read_table tb_constraints]. intros c Hc. apply in_map_iff in Hc as (k & <- & Hk). cbn [want_constraint con_type con_refcolumns].
      intro Q. rewrite Q. destruct (C4 k Hk) as (_ & Z & _). specialize (Z Q).
      replace (beqb FOREIGN_KEY FOREIGN_KEY) with true by reflexivity. destruct (con_refcolumns k); [congruence|discriminate].
Qed.
End Read.
