(** Reading a database that has been read before. *)
From Verif Require Import GoStr GoStrFacts ModelCatalog ModelDdl ModelCache SpecCache CacheFacts ModelIntrospect
  IntrospectShape IntrospectFacts SpecArgs SpecLive IntrospectRead IntrospectDb ModelCombine SpecCombine CombineFacts.

Lemma set_nth_map {A} (nm : A -> bytes) : forall l i a h, NoDup (map nm l) -> nth_error l i = Some a ->
  set_nth i (h a) l = map (fun b => if beqb (nm b) (nm a) then h b else b) l.
Proof.
  induction l as [|b l IH]; intros i a h D E; [destruct i; discriminate|]. cbn [map] in D. inversion D as [|? ? D1 D2]; subst.
  destruct i as [|i]; cbn [nth_error set_nth map] in *.
  - injection E as ->. rewrite beqb_refl. f_equal. rewrite <- (map_id l) at 1. apply map_ext_in. intros c Hc.
    destruct (beqb (nm c) (nm a)) eqn:Q; [|reflexivity]. apply beqb_eq in Q. exfalso. apply D1. rewrite <- Q. apply in_map. exact Hc.
  - rewrite (IH i a h D2 E). destruct (beqb (nm b) (nm a)) eqn:Q; [|reflexivity]. apply beqb_eq in Q. exfalso. apply D1. rewrite Q.
    apply in_map. eapply nth_error_In. exact E.
Qed.
Lemma set_schemas_same c : set_schemas c (ca_schemas c) = c.
Proof. destruct c. reflexivity. Qed.
Lemma set_tables_same c : set_tables c (ca_tables c) = c.
Proof. destruct c. reflexivity. Qed.

Section Twice.
Variable d : dialect.
Variable f : choice.
Variable db : database.
Hypothesis OK : database_ok d db.
Hypothesis CL : clear d f db.
Let sel := table_listed d f.
Definition cat2 : list schema := want d f db.
Definition bl (t : table) : table := Table (tb_schema t) (tb_name t) (tb_sql t) (tb_virtual t) [] [] [] false.
Definition done_key (done : list live_table) (t : table) : bool := existsb (fun x => is_key (tb_schema t) (tb_name t) x) done.
Definition em (done : list live_table) (t : table) : table := if done_key done t then bl t else t.
Definition E (done : list live_table) : list schema := map (fun sc => with_tables sc (map (em done) (sc_tables sc))) cat2.

Lemma in_cat2 sc t : In sc cat2 -> In t (sc_tables sc) -> exists x, In x (added d f db) /\ tb_schema (lv_table x) = sc_name sc /\ t = want_table db (lv_table x).
Proof.
  intros Hsc Ht. unfold cat2, want in Hsc. apply in_flat_map in Hsc as (s & Hs & Hsc). unfold want_schema in Hsc.
  destruct (filter (is_wanted d f (fst s)) (snd s)) as [|y l] eqn:F; [destruct Hsc|]. rewrite <- F in Hsc. destruct Hsc as [<-|[]].
  cbn [sc_name sc_tables] in *. apply in_map_iff in Ht as (x & <- & Hx). apply filter_In in Hx as (Hx & W). exists x. split; [|split; [|reflexivity]].
  - apply in_added. exists s. split; [exact Hs|]. split; [exact Hx|]. destruct CL as (CF & _). destruct (tab_ok d f db OK CL s x Hs Hx) as (_ & (N & _)).
    unfold is_wanted in W. unfold table_listed. rewrite (scope_wanted d f db s x (not_other d db OK) CF Hs Hx N). exact W.
  - eapply place; eassumption.
Qed.
Lemma cat2_in x : In x (added d f db) -> exists sc, In sc cat2 /\ sc_name sc = tb_schema (lv_table x) /\ In (want_table db (lv_table x)) (sc_tables sc).
Proof.
  intro H. apply in_added in H as (s & Hs & Hx & S). exists (Schema (fst s) (map (fun x => want_table db (lv_table x)) (filter (is_wanted d f (fst s)) (snd s))) false).
  assert (W : In x (filter (is_wanted d f (fst s)) (snd s))).
  { apply filter_In. split; [exact Hx|]. destruct CL as (CF & _). destruct (tab_ok d f db OK CL s x Hs Hx) as (_ & (N & _)).
    unfold is_wanted. rewrite <- (scope_wanted d f db s x (not_other d db OK) CF Hs Hx N). exact S. }
  split; [|split; [cbn; symmetry; eapply place; eassumption|cbn [sc_tables]; apply in_map_iff; eauto]]. unfold cat2, want. apply in_flat_map. exists s. split; [exact Hs|].
  unfold want_schema. destruct (filter _ (snd s)); [destruct W|left; reflexivity].
Qed.
Lemma read_first : read_into d f db [] = Ok cat2 /\ kept cat2.
Proof.
  pose proof (read_is_want d f db OK CL) as R. destruct (read_into_adds d f db OK CL [] kept_nil) as (r & R1 & K & _); [reflexivity|].
  change (read_into d f db [] = Ok (want d f db)) in R. split; [exact R|]. rewrite R in R1. injection R1 as <-. exact K.
Qed.
Let c2 := new_cache cat2.
Lemma inv2 : st_inv true (State cat2 c2).
Proof. apply new_state_inv, kept_distinct, read_first. Qed.
Lemma names_of done sc : map tb_name (map (em done) (sc_tables sc)) = map tb_name (sc_tables sc).
Proof. rewrite map_map. apply map_ext. intro t. unfold em. destruct (done_key done t); reflexivity. Qed.
Lemma schema_at sc done : In sc cat2 -> exists i, nth_error cat2 i = Some sc /\ ca_schemas c2 [sc_name sc] = Some i
  /\ nth_error (E done) i = Some (with_tables sc (map (em done) (sc_tables sc))) /\ sc_ignore sc = false.
Proof.
  intro H. destruct inv2 as ((G1 & G2) & F & _). rewrite Forall_forall in F. destruct (F sc H) as (IG & _).
  cbn [st_schemas st_cache] in *. destruct (ca_schemas c2 [sc_name sc]) as [i|] eqn:Q; [|exfalso; apply (G2 (sc_name sc) I Q sc H); reflexivity].
  destruct (G1 _ _ Q) as (a & A1 & A2 & A3). apply In_nth_error in H as (j & Hj). specialize (A3 I j sc Hj eq_refl IG). subst j.
  exists i. split; [exact Hj|]. split; [reflexivity|]. split; [unfold E; rewrite nth_error_map, Hj; reflexivity|exact IG].
Qed.
Lemma table_at sc t done : In sc cat2 -> In t (sc_tables sc) -> exists j, nth_error (sc_tables sc) j = Some t /\ ca_tables c2 [sc_name sc; tb_name t] = Some j
  /\ nth_error (map (em done) (sc_tables sc)) j = Some (em done t) /\ tb_ignore (em done t) = false /\ tb_schema t = sc_name sc.
Proof.
  intros H Ht. destruct inv2 as (_ & F & _). rewrite Forall_forall in F. destruct (F sc H) as (_ & (G1 & G2) & T & _). rewrite Forall_forall in T.
  destruct (T t Ht) as (TS & TI & _). cbn [st_cache] in *.
  destruct (ca_tables c2 [sc_name sc; tb_name t]) as [j|] eqn:Q; [|exfalso; apply (G2 (tb_name t) I Q t Ht); reflexivity].
  destruct (G1 _ _ Q) as (a & A1 & A2 & A3). apply In_nth_error in Ht as (k & Hk). specialize (A3 I k t Hk eq_refl TI). subst k.
  exists j. split; [exact Hk|]. split; [reflexivity|]. split; [rewrite nth_error_map, Hk; reflexivity|]. split; [|exact TS]. unfold em. destruct (done_key done t); [reflexivity|exact TI].
Qed.
Lemma again x done : In x (added d f db) -> add_table (State (E done) c2) (blank_live x) = Ok (State (E (done ++ [x])) c2).
Proof.
  intro H. destruct (cat2_in x H) as (sc & Hsc & N & Ht). destruct (schema_at sc done Hsc) as (i & I1 & I2 & I3 & I4).
  destruct (table_at sc _ done Hsc Ht) as (j & J1 & J2 & J3 & J4 & J5). cbn [want_table tb_name] in J2.
  unfold add_table, step, get_or_create_schema, get_or_create, at_pos. cbn [st_schemas st_cache blank_live blank_table tb_schema]. rewrite <- N, I2, I3. cbn [bindr with_tables sc_ignore].
  rewrite I4. cbn [bindr enter st_schemas st_cache]. rewrite I3. cbn [run_call]. unfold add_or_update_table, add_or_update, at_pos. rewrite set_schemas_same.
  cbn [with_tables sc_name sc_tables sc_ignore tb_name blank_live blank_table]. rewrite J2, J3, J4. cbn [bindr enter]. rewrite set_tables_same. do 2 f_equal.
  destruct read_first as (_ & (K1 & K2)). rewrite Forall_forall in K2. destruct (K2 sc Hsc) as (_ & _ & K3 & _).
  set (B := blank_live x). change (with_tables _ ?l) with (Schema (sc_name sc) l (sc_ignore sc)).
  assert (EB : B = bl (em done (want_table db (lv_table x)))) by (unfold B, bl, em; destruct (done_key _ _); reflexivity).
  match goal with |- set_nth _ (Schema _ (set_nth _ ?b _) _) _ = _ => assert (EB' : b = bl (em done (want_table db (lv_table x)))) end.
  { rewrite <- EB. unfold B, blank_live, blank_table. rewrite N. reflexivity. }
  rewrite EB'. rewrite (set_nth_map tb_name) by (try exact J3; rewrite names_of; exact K3).
  set (h := fun b => if beqb (tb_name b) (tb_name (em done (want_table db (lv_table x)))) then bl b else b).
  change (Schema (sc_name sc) (map h (map (em done) (sc_tables sc))) (sc_ignore sc))
    with ((fun s => Schema (sc_name s) (map h (sc_tables s)) (sc_ignore s)) (with_tables sc (map (em done) (sc_tables sc)))).
  rewrite (set_nth_map sc_name) by (try exact I3; unfold E; rewrite map_map; exact K1).
  unfold E. rewrite map_map. apply map_ext_in. intros sc' Hsc'. cbn [with_tables sc_name sc_tables sc_ignore].
  assert (DK : forall t, In t (sc_tables sc') -> em (done ++ [x]) t = if beqb (sc_name sc') (sc_name sc) && beqb (tb_name t) (tb_name (lv_table x)) then bl t else em done t).
  { intros t Ht'. unfold em, done_key. rewrite existsb_app. cbn [existsb]. rewrite orb_false_r.
    destruct (in_cat2 sc' t Hsc' Ht') as (y & Y1 & Y2 & Y3). unfold is_key at 2. rewrite <- N, Y3. cbn [want_table tb_schema tb_name]. rewrite Y2.
    destruct (existsb _ done); cbn [orb]; [destruct (_ && _); reflexivity|]. reflexivity. }
  rewrite (map_ext_in _ _ _ DK). destruct (beqb (sc_name sc') (sc_name sc)) eqn:Q; cbn [andb].
  - unfold with_tables. f_equal. rewrite map_map. apply map_ext. intro t. unfold h.
    replace (tb_name (em done (want_table db (lv_table x)))) with (tb_name (lv_table x)) by (unfold em; destruct (done_key _ _); reflexivity).
    replace (tb_name (em done t)) with (tb_name t) by (unfold em; destruct (done_key _ _); reflexivity).
    destruct (beqb (tb_name t) (tb_name (lv_table x))); [|reflexivity]. unfold em. destruct (done_key _ _); reflexivity.
  - unfold with_tables. reflexivity.
Qed.
Lemma again_all : forall L done, incl L (added d f db) -> each_row add_table (State (E done) c2) (map blank_live L) = Ok (State (E (done ++ L)) c2).
Proof.
  induction L as [|x L IH]; intros done H; cbn [map each_row]; [rewrite app_nil_r; reflexivity|].
  rewrite again by (apply H; left; reflexivity). cbn [bindr]. rewrite IH by (intros y Hy; apply H; right; exact Hy). rewrite <- app_assoc. reflexivity.
Qed.
Let st2 := State (E (added d f db)) c2.
Lemma emptied sc t : In sc cat2 -> In t (sc_tables sc) -> em (added d f db) t = bl t.
Proof.
  intros Hsc Ht. destruct (in_cat2 sc t Hsc Ht) as (x & X1 & X2 & ->). unfold em, done_key.
  replace (existsb _ _) with true; [reflexivity|]. symmetry. apply existsb_exists. exists x. split; [exact X1|]. apply is_key_true. auto.
Qed.
Lemma column_again s x a : In s db -> In x (snd s) -> In a (tb_columns (lv_table x)) ->
  (In x (added d f db) -> add_column st2 a = Panic) /\ (~ In x (added d f db) -> add_column st2 a = Ok st2).
Proof.
  intros Hs Hx Ha. destruct (tab_ok d f db OK CL s x Hs Hx) as ((T1 & _ & _ & _ & _ & T6 & _) & _). rewrite Forall_forall in T6. destruct (T6 a Ha) as (A1 & A2 & _).
  unfold add_column, if_table, get_schema, at_pos. rewrite A1, A2, T1. split.
  - intro H. destruct (cat2_in x H) as (sc & Hsc & N & Ht). rewrite T1 in N. destruct (schema_at sc (added d f db) Hsc) as (i & I1 & I2 & I3 & I4).
    destruct (table_at sc _ (added d f db) Hsc Ht) as (j & J1 & J2 & J3 & J4 & J5). cbn [want_table tb_name] in J2.
    cbn [st_schemas st_cache st2]. rewrite <- N, I2, I3. cbn [with_tables sc_ignore]. rewrite I4. cbn [bindr]. rewrite I3. unfold get_table, at_pos. cbn [with_tables sc_name sc_tables].
    rewrite J2, J3, J4. cbn [bindr]. unfold step, get_or_create_schema, get_or_create, at_pos. cbn [st_schemas st_cache st2]. rewrite I2, I3. cbn [with_tables sc_ignore]. rewrite I4. cbn [bindr enter st_schemas st_cache].
    rewrite I3. cbn [run_call]. unfold on_table, get_or_create_table, get_or_create, at_pos. rewrite set_schemas_same. cbn [with_tables sc_name sc_tables]. rewrite J2, J3, J4. cbn [bindr enter with_tables sc_tables].
    rewrite J3. unfold add_or_update_column, add_or_update, at_pos. rewrite (emptied sc) by assumption. cbn [bl tb_columns tb_schema tb_name want_table set_tables ca_columns col_name].
    destruct inv2 as (_ & F & _). rewrite Forall_forall in F. destruct (F sc Hsc) as (_ & _ & T & _). rewrite Forall_forall in T. destruct (T _ Ht) as (_ & _ & (_ & G) & _).
    cbn [st_cache want_table tb_name tb_columns] in G. rewrite T1, <- N. destruct (ca_columns c2 [sc_name sc; tb_name (lv_table x); col_name a]) as [k|] eqn:Q.
    + destruct k; reflexivity.
    + exfalso. apply (G (col_name a) I Q (want_column (lv_table x) a)); [apply in_map; exact Ha|reflexivity].
  - intro H. cbn [st_schemas st_cache st2]. destruct (ca_schemas c2 [fst s]) as [i|] eqn:Q; [|reflexivity].
    destruct inv2 as ((G1 & _) & F & _). cbn [st_schemas st_cache] in *. destruct (G1 _ _ Q) as (sc & S1 & S2 & _). rewrite Forall_forall in F.
    pose proof (nth_error_In _ _ S1) as Hsc. destruct (F sc Hsc) as (SI & (G3 & _) & _). unfold E at 1. rewrite nth_error_map, S1. cbn [option_map with_tables sc_ignore]. rewrite SI. cbn [bindr].
    unfold E at 1. rewrite nth_error_map, S1. cbn [option_map]. unfold get_table, at_pos. cbn [with_tables sc_name sc_tables].
    destruct (ca_tables c2 [sc_name sc; tb_name (lv_table x)]) as [j|] eqn:Q2; [|reflexivity]. exfalso. destruct (G3 _ _ Q2) as (t & J1 & J2 & _).
    apply nth_error_In in J1. destruct (in_cat2 sc t Hsc J1) as (y & Y1 & Y2 & ->). cbn [want_table tb_name] in J2. pose proof Y1 as Y0. apply in_added in Y1 as (s' & Hs' & Hy & Sy).
    assert (Z : s' = s /\ y = x).
    { apply (placed_same db s' s y x); auto; [apply (db_placed d db OK)|]. congruence. }
    destruct Z as (-> & ->). apply H. exact Y0.
Qed.
Lemma columns_again : forall L, (forall a, In a L -> add_column st2 a = Ok st2 \/ add_column st2 a = Panic) ->
  (exists a, In a L /\ add_column st2 a = Panic) -> each_row add_column st2 L = Panic.
Proof.
  induction L as [|b L IH]; intros H (a & Ha & P); [destruct Ha|]. cbn [each_row].
  destruct (H b (or_introl eq_refl)) as [Q|Q]; rewrite Q; [|reflexivity]. cbn [bindr]. apply IH; [intros; apply H; right; assumption|].
  destruct Ha as [->|Ha]; [congruence|eauto].
Qed.
Theorem read_twice s t : holds (want d f db) s t -> tb_columns t <> [] -> read_all d [(f, db); (f, db)] [] = Panic.
Proof.
  intros (sc & Hsc & N & Ht) NC. destruct (in_cat2 sc t Hsc Ht) as (x & X1 & X2 & X3). subst t.
  cbn [read_all]. rewrite (proj1 read_first). cbn [bindr]. unfold read_into at 1. rewrite (choice_fine d f db) by (try apply CL; exact (not_other d db OK)).
  rewrite rows_added. assert (E0 : new_state cat2 = State (E []) c2).
  { unfold new_state, E, c2. f_equal. rewrite <- (map_id cat2) at 1. apply map_ext. intro sc'. unfold with_tables.
    rewrite (map_ext _ (fun t => t)) by reflexivity. rewrite map_id. destruct sc'; reflexivity. }
  rewrite E0, again_all by (intros y Hy; exact Hy). cbn [app bindr]. fold st2. rewrite columns_again; [reflexivity| |].
  - intros a Ha. apply in_rows in Ha as (s' & y & Hs & Hy & S & Ha). destruct (column_again s' y a Hs Hy Ha) as (C1 & C2).
    destruct (table_listed d f (fst s') y) eqn:Q; [right; apply C1|left; apply C2]; rewrite in_added.
    + exists s'. auto.
    + intros (s2 & H1 & H2 & H3). assert (Z : fst s2 = fst s') by (rewrite <- (place d f db OK CL s2 y H1 H2); eapply place; eassumption). rewrite Z, Q in H3. discriminate H3.
  - pose proof X1 as X0. apply in_added in X1 as (s' & Hs & Hx & S). cbn [want_table tb_columns] in NC. destruct (tb_columns (lv_table x)) as [|a l] eqn:EC; [exfalso; apply NC; reflexivity|].
    exists a. assert (Ha : In a (tb_columns (lv_table x))) by (rewrite EC; left; reflexivity). split; [|apply (column_again s' x a Hs Hx Ha); exact X0].
    unfold rows_of. apply in_flat_map. exists s'. split; [exact Hs|]. apply in_flat_map. exists x. split; [exact Hx|].
    destruct (selected_listed d f db OK CL s' x Hs Hx S) as (CLS & _). rewrite CLS. exact Ha.
Qed.
End Twice.
