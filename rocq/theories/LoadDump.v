(** Loading the files of a dump. *)
From Coq Require Import Permutation Lia.
From Verif Require Import GoStr GoStrFacts ModelSq SpecSql SpecInsert SpecTokens SpecDdl ModelCatalog ModelCache ModelDdl ModelDiff ModelDiffSql
  ModelDdlText SpecDdlText SpecDiff DiffLookup SpecApply ApplyFacts ModelDump SpecLoad LoadTexts LoadRun LoadTables.

Lemma same_names_set a b : same_set a b -> same_names a b = true.
Proof. intros H. apply andb_true_intro. split; apply forallb_forall; intros n Hn; apply bmem_In; apply H; exact Hn. Qed.

Section Loading.
Context (d : dialect) (cat : catalog).
Hypothesis D : In d [Postgres; MySQL; SQLServer].
Hypothesis R : restorable d cat.
Notation cur := (ct_current cat).
Notation coll := (ct_collation cat).
Notation tables := (catalog_tables cat).
Notation conmeant := (constraint_meant d cur).
Notation at_start S := (state (start d cat S)).

(** ** The tables that foreign keys refer to *)
Lemma whereabouts_at e : In e tables -> whereabouts cur (path_of (qualify cur (fst e) (tb_name (snd e)))) = Some (place_of e).
Proof.
  intros H. pose proof (schema_given d cat R e H) as N. unfold qualify, place_of. destruct (beqb_spec (fst e) cur) as [E|Nc].
  - rewrite andb_false_r. cbn [path_of fst snd whereabouts]. rewrite E. reflexivity.
  - destruct (fst e) as [|c s] eqn:Ef; [congruence|]. reflexivity.
Qed.
Lemma whereabouts_target c : d <> MySQL -> whereabouts cur (target_of d cur c) = Some (target cur c).
Proof.
  intros Nm. unfold target_of, target, place. cbn [fst snd]. destruct (beqb_spec (con_refschema c) cur) as [E|N]; cbn [orb].
  - assert (match d with MySQL => if beqb (con_schema c) (con_refschema c) then [con_reftable c] else path_of (cur, con_reftable c) | _ => [con_reftable c] end = [con_reftable c]) as -> by (destruct d; congruence).
    cbn [whereabouts]. destruct (con_refschema c); [reflexivity|rewrite E; reflexivity].
  - destruct (con_refschema c) as [|x s]; [|reflexivity]. destruct d; try reflexivity. congruence.
Qed.
Lemma plain_elements cols : forall desc cl, (forall n, In n cols -> is_expression n = false) -> all_some (map plain_element (parts_of d cols desc cl)) = Some cols.
Proof.
  induction cols as [|c cols IH]; intros desc cl H; [reflexivity|]. cbn [parts_of map all_some]. unfold plain_element at 1. cbn [pt_element]. rewrite (H c (or_introl eq_refl)).
  rewrite IH; [reflexivity|]. intros n Hn. apply H. right. exact Hn.
Qed.
Lemma target_there S l e c : In e tables -> In c (tb_constraints (snd e)) ->
  (d = MySQL \/ (foreign c -> exists u, In u tables /\ target cur c = place_of u /\ among (snd u) (con_refcolumns c) /\ refers_to_unique (snd u) (con_refcolumns c)
     /\ incl (index_ops d cat u) l /\ incl (early_ops d cat u) l)) ->
  can_target d cur (at_start S l) (kd_body (conmeant c)) = true.
Proof.
  intros H Hc T. destruct (rt_constraint _ _ _ _ (restorable_at d cat R e H) c Hc) as (_ & _ & _ & _ & W & _).
  unfold constraint_meant, body_of. cbn [kd_body]. destruct (wk_type _ _ _ W) as [E|[E|[E|[E|[E|[]]]]]]; rewrite <- E; try reflexivity.
  change (can_target d cur (at_start S l) (BForeign (con_columns c) (target_of d cur c) (con_refcolumns c) (beqb (con_match c) (B"MATCH FULL")) (rule_of (con_update c), rule_of (con_delete c))) = true).
  unfold can_target. assert (Dd : d = MySQL \/ d <> MySQL) by (destruct d; [right; discriminate|right; discriminate|left; reflexivity|right; discriminate|right; discriminate]).
  destruct Dd as [Dm|Nm]; [rewrite Dm; reflexivity|]. destruct T as [T|T]; [congruence|].
  destruct (T (eq_sym E)) as (u & Hu & Et & A & Q & L1 & L2).
  assert (G : match whereabouts cur (target_of d cur c) with
    | Some q => match find_table (at_start S l) q with Some x => has_all x (con_refcolumns c) && unique_on x (con_refcolumns c) | None => false end
    | None => false end = true); [|destruct d; try exact G; congruence].
  rewrite (whereabouts_target c Nm), Et, (find_base d cat R S l u Hu), (has_all_among d cat l u _ A). cbn [andb].
  unfold unique_on. apply orb_true_iff. destruct Q as [(k & Hk & Uk & Sk)|(i & Hi & Ui & Pi & Si & Xi)].
  - left. apply existsb_exists. exists (conmeant k, false). split.
    + cbn [grow base_of lt_constraints lt_place]. apply in_or_app.
      apply (Permutation_in _ (constraint_parts d cat D R u Hu)) in Hk. rewrite !in_app_iff in Hk. destruct Hk as [Hk|[Hk|Hk]].
      * left. apply in_map_iff. exists k. split; [reflexivity|exact Hk].
      * right. apply in_keys_at. split; [reflexivity|]. apply L2. apply in_map_iff. exists k. split; [reflexivity|exact Hk].
      * apply filter_In in Hk as (_ & Hk). apply andb_true_iff in Hk as (Hk & _). unfold is_fkey in Hk. apply beqb_eq in Hk. destruct Uk as [Uk|Uk]; rewrite Uk in Hk; discriminate Hk.
    + cbn [fst constraint_meant kd_body]. unfold body_of. destruct Uk as [Uk|Uk]; rewrite Uk; exact (same_names_set _ _ Sk).
  - right. apply existsb_exists. exists (ixmeant d cat u i). split.
    + cbn [grow base_of lt_indexes lt_place app]. apply in_indexes_at. apply L1. apply in_map_iff. exists i. split; [reflexivity|exact Hi].
    + cbn [ixmeant index_meant xd_unique xd_where xd_elements]. rewrite Ui, Pi. rewrite (plain_elements _ _ _ Xi). rewrite (same_names_set _ _ Si). destruct d; reflexivity.
Qed.

(** ** The three files *)
(** Schemas. *)
Lemma create_schemas l : forall x, (forall s, In s l -> sc_name s <> []) ->
  exists y, each_in (run d cur) (map (fun s => CreateSchema (sc_name s)) l) (Some x) = Some y /\ l_tables y = l_tables x
    /\ incl (l_schemas x) (l_schemas y) /\ forall s, In s l -> In (sc_name s) (l_schemas y).
Proof.
  induction l as [|s l IH]; intros x Nn; [exists x; repeat split; [apply incl_refl|intros s []]|].
  unfold each_in. cbn [map fold_left andthen run]. assert (none (sc_name s) = false) as -> by (pose proof (Nn s (or_introl eq_refl)); destruct (sc_name s); [congruence|reflexivity]).
  destruct (IH (if bmem (sc_name s) (l_schemas x) then x else LDb (l_schemas x ++ [sc_name s]) (l_tables x)) (fun s' Hs' => Nn s' (or_intror Hs'))) as (y & Ey & T & I & H).
  exists y. split; [exact Ey|]. destruct (bmem (sc_name s) (l_schemas x)) eqn:M; cbn [l_tables l_schemas] in *.
  - apply bmem_In in M. repeat split; [exact T|exact I|]. intros s' [<-|Hs']; [apply I, M|exact (H s' Hs')].
  - repeat split; [exact T|intros n Hn; apply I; apply in_or_app; left; exact Hn|]. intros s' [<-|Hs']; [apply I; apply in_or_app; right; left; reflexivity|exact (H s' Hs')].
Qed.
(** Tables. *)
Lemma create_all_columns e : In e tables -> can_create_all d (colmeant d cat e) (map conmeant (first_constraints d (snd e))) = true.
Proof.
  intros H. pose proof (restorable_at d cat R e H) as T. destruct (rt_columns _ _ _ _ T) as (Ne & Nd). unfold can_create_all.
  apply andb_true_intro. split; [apply andb_true_intro; split; [apply andb_true_intro; split|]|].
  - unfold colmeant. destruct (tb_columns (snd e)); [congruence|reflexivity].
  - rewrite names_of_columns. clear Ne. induction Nd as [|n l Hn Nd IH]; [reflexivity|]. cbn [distinct]. rewrite IH, andb_true_r. apply negb_true_iff. destruct (bmem n l) eqn:M; [|reflexivity]. apply bmem_In in M. contradiction.
  - apply forallb_forall. intros c' Hc'. apply in_map_iff in Hc' as (c & <- & Hc). destruct (rt_column _ _ _ _ T c Hc) as (_ & _ & _ & U & _). unfold can_create. cbn [column_meant cd_primary cd_unique cd_refers cd_default].
    rewrite andb_false_r. assert (Z : col_pkey c && (false || match d with SQLite => true | _ => false end) = false) by (destruct D as [<-|[<-|[<-|[]]]]; apply andb_false_r).
    rewrite Z. cbn [negb andb]. destruct D as [<-|[<-|[<-|[]]]]; try reflexivity. destruct (col_default c) as [|x s] eqn:Ec; [reflexivity|]. rewrite (U eq_refl). reflexivity.
  - assert (Dd : d = MySQL \/ d <> MySQL) by (destruct d; [right; discriminate|right; discriminate|left; reflexivity|right; discriminate|right; discriminate]).
    destruct Dd as [Dm|Nm]; [|destruct d; try reflexivity; congruence].
    assert (G : match filter cd_auto (colmeant d cat e) with [] => true | [c] => existsb (leads (cd_name c)) (map conmeant (first_constraints d (snd e))) | _ => false end = true); [|rewrite Dm in *; exact G].
    destruct (filter cd_auto (colmeant d cat e)) as [|x m] eqn:Ef; [reflexivity|].
    assert (Hx : forall y, In y (x :: m) -> exists c, In c (tb_columns (snd e)) /\ y = column_meant d coll false no_reference c /\ col_autoincrement c = true).
    { intros y Hy. rewrite <- Ef in Hy. apply filter_In in Hy as (Hy & Ea). apply in_map_iff in Hy as (c & <- & Hc). exists c. repeat split; [exact Hc|]. cbn [column_meant cd_auto] in Ea. apply andb_true_iff in Ea as (Ea & _). exact Ea. }
    destruct (Hx x (or_introl eq_refl)) as (c & Hc & -> & Ac). destruct (rt_column _ _ _ _ T c Hc) as (_ & _ & _ & _ & Z). destruct (Z Dm Ac) as (U & k & l & Hk & Pk & Ck).
    destruct m as [|y m].
    + apply existsb_exists. exists (conmeant k). split.
      * apply in_map. rewrite (first_is d cat D R e H). apply filter_In. split; [exact Hk|]. unfold with_table. rewrite Pk, Dm. reflexivity.
      * unfold leads, constraint_meant, body_of. cbn [kd_body]. rewrite Pk. cbn [beqb]. change (is_key (BPrimary (con_columns k)) && match key_columns (BPrimary (con_columns k)) with Some (m :: _) => beqb m (col_name c) | _ => false end = true). rewrite Ck. cbn. apply beqb_refl.
    + exfalso. destruct (Hx y (or_intror (or_introl eq_refl))) as (c' & Hc' & -> & Ac'). pose proof (U c' Hc' Ac') as ->.
      assert (Nn : NoDup (map cd_name (colmeant d cat e))) by (rewrite names_of_columns; exact Nd).
      assert (Nf : forall p l, NoDup (map cd_name l) -> NoDup (map cd_name (filter p l))).
      { clear. intros p l N. induction l as [|a l IH]; [constructor|]. cbn [map] in N. apply NoDup_cons_iff in N as (Na & N). cbn [filter]. destruct (p a); [|exact (IH N)]. cbn [map]. constructor; [|exact (IH N)].
        intros X. apply Na. apply in_map_iff in X as (b & Eb & Hb). apply filter_In in Hb as (Hb & _). rewrite <- Eb. apply in_map. exact Hb. }
      apply (Nf cd_auto) in Nn. rewrite Ef in Nn. cbn [map] in Nn. apply NoDup_cons_iff in Nn as (Nn & _). apply Nn. left. reflexivity.
Qed.
Lemma create_tables S l : (forall s, In s (ct_schemas cat) -> In (sc_name s) S) -> forall done, tables = done ++ l ->
  each_in (run d cur) (map (create_stmt d cat) l) (Some (LDb S (map (base_of d cat) done))) = Some (start d cat S).
Proof.
  intros HS. induction l as [|e l IH]; intros done E; [rewrite app_nil_r in E; unfold start; rewrite E; reflexivity|].
  assert (H : In e tables) by (rewrite E; apply in_or_app; right; left; reflexivity).
  pose proof (names_apart d cat D R S) as N. unfold start, names_in in N. cbn [l_tables] in N. rewrite E, map_app, flat_map_app in N. apply nodup_left in N. cbn [map flat_map] in N.
  assert (Np : ~ In (place_of e) (map place_of done)).
  { pose proof (places_apart d cat R) as P. rewrite E, map_app in P. cbn [map] in P. apply NoDup_remove_2 in P. intros Z. apply P. apply in_or_app. left. exact Z. }
  unfold each_in. cbn [map fold_left andthen run create_stmt]. rewrite (whereabouts_at e H). cbn [andthen].
  assert (A : add_table d cur (place_of e) (colmeant d cat e) (map conmeant (first_constraints d (snd e))) (LDb S (map (base_of d cat) done)) = Some (LDb S (map (base_of d cat) (done ++ [e])))).
  { unfold add_table. cbn [l_schemas l_tables].
    assert (bmem (fst (place_of e)) S = true) as ->.
    { apply bmem_In. cbn [place_of fst]. destruct (tables_in cat e H) as (s & Hs & _ & ->). exact (HS s Hs). }
    rewrite unused_In.
    2:{ intros n [<-|[]] Hn. unfold names_in in Hn. cbn [l_tables] in Hn. apply (nodup_apart _ _ _ N Hn). apply in_or_app. left. left. reflexivity. }
    assert (existsb (fun t => qeqb (lt_place t) (place_of e)) (map (base_of d cat) done) = false) as ->.
    { destruct (existsb _ (map (base_of d cat) done)) eqn:X; [|reflexivity]. apply existsb_exists in X as (t & Ht & X). apply in_map_iff in Ht as (e' & <- & He').
      cbn [base_of lt_place] in X. destruct (qeqb_spec (place_of e') (place_of e)) as [Ee|]; [|discriminate X]. exfalso. apply Np. rewrite <- Ee. apply in_map. exact He'. }
    rewrite (create_all_columns e H). cbn [andb negb].
    set (new := LTable (place_of e) (colmeant d cat e) [] []). set (x := LDb S (map (base_of d cat) done ++ [new])).
    rewrite (each_same _ (do_op d cur) (fun k => (place_of e, inr k))) by reflexivity. rewrite map_map.
    change (fun c => (place_of e, inr (conmeant c))) with (key_op d cat e).
    assert (Hf : forall c, In c (first_constraints d (snd e)) -> In c (tb_constraints (snd e)) /\ primary c) by (intros c; exact (first_in d cat D R (snd e) c)).
    rewrite <- (state_nil x). rewrite do_all.
    - unfold state, x. cbn [l_schemas l_tables app]. rewrite !map_app. do 2 f_equal. f_equal.
      + rewrite map_map. apply map_ext_in. intros e' He'. unfold grow. cbn [base_of lt_place lt_columns lt_constraints lt_indexes].
        assert (O : forall q l', (forall o, In o l' -> fst o <> q) -> keys_at q l' = [] /\ indexes_at q l' = []).
        { clear. intros q l' X. induction l' as [|o l' IH]; [split; reflexivity|]. unfold keys_at, indexes_at in *. cbn [flat_map]. destruct (qeqb_spec (fst o) q) as [Z|_]; [exfalso; exact (X o (or_introl eq_refl) Z)|]. apply IH. intros o' Ho'. apply X. right. exact Ho'. }
        destruct (O (place_of e') (map (key_op d cat e) (first_constraints d (snd e)))) as (-> & ->).
        { intros o Ho. apply in_map_iff in Ho as (c & <- & _). cbn [key_op fst]. intros Z. apply Np. rewrite Z. apply in_map. exact He'. }
        rewrite !app_nil_r. reflexivity.
      + cbn [map]. f_equal. unfold grow, new, base_of. cbn [lt_place lt_columns lt_constraints lt_indexes app].
        assert (K : forall l', keys_at (place_of e) (map (key_op d cat e) l') = map (fun c => (conmeant c, false)) l' /\ indexes_at (place_of e) (map (key_op d cat e) l') = []).
        { clear. induction l' as [|c l' IH]; [split; reflexivity|]. unfold keys_at, indexes_at in *. cbn [map flat_map key_op fst snd]. rewrite qeqb_refl. cbn [app]. destruct IH as (-> & ->). split; reflexivity. }
        destruct (K (first_constraints d (snd e))) as (-> & ->). reflexivity.
    - cbn [app]. unfold x, names_in. cbn [l_tables]. rewrite flat_map_app. cbn [flat_map new names_of_table lt_place lt_constraints lt_indexes map app]. rewrite <- app_assoc.
      cbn [app]. rewrite app_assoc in N. apply nodup_left in N. unfold names_of_table in N. cbn [base_of lt_place lt_constraints lt_indexes map] in N. rewrite app_nil_r in N.
      rewrite !flat_map_of_map in *. exact N.
    - intros l1 o l2 Eo. assert (l1 = [] /\ exists c, In c (first_constraints d (snd e)) /\ o = key_op d cat e c) as (-> & c & Hc & ->).
      { assert (Len : List.length (first_constraints d (snd e)) <= 1).
        { unfold first_constraints. destruct D as [<-|[<-|[<-|[]]]]; cbn [listed_constraints]; [cbn; lia| |]; apply firstn_le_length. }
        pose proof (f_equal (@List.length _) Eo) as El. rewrite map_length, app_length in El. cbn [List.length] in El.
        split; [destruct l1; [reflexivity|cbn in El; lia]|]. assert (Ho : In o (map (key_op d cat e) (first_constraints d (snd e)))) by (rewrite Eo; apply in_or_app; right; left; reflexivity).
        apply in_map_iff in Ho as (c & <- & Hc). exists c. split; [exact Hc|reflexivity]. }
      destruct (Hf c Hc) as (Hc1 & Pc). rewrite app_nil_r, state_nil. exists new. split.
      + unfold find_table, x. cbn [l_tables key_op fst].
        assert (G : forall m, ~ In (place_of e) (map place_of m) -> find (fun t => qeqb (lt_place t) (place_of e)) (map (base_of d cat) m ++ [new]) = Some new).
        { induction m as [|a m IHm]; intros Na; cbn [map app find base_of lt_place new]; [rewrite qeqb_refl; reflexivity|]. destruct (qeqb_spec (place_of a) (place_of e)) as [Z|_]; [exfalso; apply Na; left; exact Z|]. apply IHm. intros Z. apply Na. right. exact Z. }
        exact (G done Np).
      + cbn [key_op snd]. split; [rewrite (proj2 (constraint_fact d cat D R e c H Hc1)); discriminate|].
        destruct (rt_constraint _ _ _ _ (restorable_at d cat R e H) c Hc1) as (_ & _ & _ & _ & W & _ & Am).
        destruct (wk_columns _ _ _ W) as (Cn & _); [rewrite Pc; discriminate|rewrite Pc; discriminate|].
        assert (Eb : kd_body (conmeant c) = BPrimary (con_columns c)) by (unfold constraint_meant, body_of; cbn [kd_body]; rewrite Pc; reflexivity).
        unfold can_have. rewrite Eb. cbn [key_columns is_primary can_target new lt_constraints existsb andb negb]. rewrite !andb_true_r.
        destruct (con_columns c) as [|n m] eqn:Ec; [congruence|]. rewrite <- Ec. apply forallb_forall. intros n' Hn'. apply bmem_In. cbn [new lt_columns]. rewrite names_of_columns. rewrite <- Ec in Am. apply (Am (or_introl (or_introl Pc))). exact Hn'. }
  unfold colmeant in A. rewrite A. apply IH. rewrite E, <- app_assoc. reflexivity.
Qed.

(** Indexes and constraints. *)
Lemma each_both {A X Y} (f : A -> X -> option X) (g : Y -> X -> option X) l m : Forall2 (fun a b => forall x, f a x = g b x) l m -> forall x, each_in f l x = each_in g m x.
Proof.
  unfold each_in. induction 1 as [|a b l m E F IH]; intros x; [reflexivity|]. cbn [fold_left].
  assert (andthen x (fun x => f a x) = andthen x (fun x => g b x)) as -> by (destruct x as [x|]; [exact (E x)|reflexivity]). apply IH.
Qed.
Definition does (st : statement) (o : op) : Prop := forall x, run d cur st x = do_op d cur o x.
Lemma does_index e i : In e tables -> does (index_stmt d cat e i) (index_op d cat e i).
Proof. intros H x. cbn [run index_stmt index_meant xd_table option_map andthen]. rewrite (whereabouts_at e H). reflexivity. Qed.
Lemma does_key e c : In e tables -> does (add_stmt d cat e c) (key_op d cat e c).
Proof. intros H x. cbn [run add_stmt]. rewrite (whereabouts_at e H). reflexivity. Qed.
Lemma does_indexes : Forall2 does (flat_map (indexes_of d cat) tables) (flat_map (index_ops d cat) tables).
Proof. apply Forall2_flat. intros e He. apply Forall2_each. intros i _. exact (does_index e i He). Qed.
Lemma does_adds : Forall2 does (flat_map (schema_adds d cat) (ct_schemas cat)) (flat_map (schema_ops d cat) (ct_schemas cat)).
Proof.
  apply Forall2_flat. intros s Hs. apply Forall2_app; apply Forall2_flat; intros e He; apply in_map_iff in He as (t & <- & Ht); apply Forall2_each; intros c _;
    exact (does_key (sc_name s, t) c (in_tables cat s t Hs Ht)).
Qed.

Lemma some_names o : In o (all_ops d cat) -> exists n, In n (op_names d o).
Proof.
  intros H. destruct (op_from d cat o H) as [(e & i & _ & _ & ->)|(e & c & He & Hc & ->)].
  - exists (index_entry d (place_of e) (ix_name i)). left. reflexivity.
  - rewrite (key_op_names d cat D R e c He Hc). apply entries_some.
Qed.
Lemma add_ops S l ops rest : all_ops d cat = l ++ ops ++ rest ->
  (forall l1 o l2, ops = l1 ++ o :: l2 -> ~ In o (l ++ l1) -> incl (l ++ l1) (all_ops d cat) -> accepted d cur (at_start S (l ++ l1)) o) ->
  each_in (do_op d cur) ops (Some (at_start S l)) = Some (at_start S (l ++ ops)).
Proof.
  intros E A. pose proof (names_apart d cat D R S) as N. apply do_all.
  - rewrite E, app_assoc, flat_map_app, app_assoc in N. apply nodup_left in N. exact N.
  - intros l1 o l2 Eo. apply (A l1 o l2 Eo).
    + intros Ho. assert (Hi : In o (all_ops d cat)) by (rewrite E, Eo; rewrite !in_app_iff; cbn [In]; tauto). destruct (some_names o Hi) as (n & Hn).
      apply nodup_right in N. rewrite E, Eo in N. assert (Ee : l ++ (l1 ++ o :: l2) ++ rest = (l ++ l1) ++ [o] ++ (l2 ++ rest)) by (rewrite <- !app_assoc; reflexivity).
      rewrite Ee, flat_map_app in N. apply (nodup_apart _ _ n N).
      * apply in_flat_map. exists o. split; assumption.
      * rewrite flat_map_app. apply in_or_app. left. cbn [flat_map]. rewrite app_nil_r. exact Hn.
    + intros o' Ho'. rewrite E, Eo. rewrite !in_app_iff in *. tauto.
Qed.
Lemma add_indexes S : each_in (do_op d cur) (flat_map (index_ops d cat) tables) (Some (start d cat S)) = Some (at_start S (flat_map (index_ops d cat) tables)).
Proof.
  rewrite <- (state_nil (start d cat S)) at 1. rewrite (add_ops S [] (flat_map (index_ops d cat) tables) (flat_map (schema_ops d cat) (ct_schemas cat)) eq_refl); [reflexivity|].
  intros l1 o l2 E _ _. assert (Ho : In o (flat_map (index_ops d cat) tables)) by (rewrite E; apply in_or_app; right; left; reflexivity).
  apply in_flat_map in Ho as (e & He & Ho). apply in_map_iff in Ho as (i & <- & Hi). exact (accepted_index d cat D R S _ e i He Hi).
Qed.
Lemma not_first e c : In e tables -> In c (tb_constraints (snd e)) -> added_early d c = true \/ is_fkey c = true -> ~ In c (first_constraints d (snd e)).
Proof.
  intros H Hc A Hf. rewrite (first_is d cat D R e H) in Hf. apply filter_In in Hf as (_ & Hf). unfold with_table in Hf. destruct A as [A|A].
  - unfold added_early in A. rewrite Hf in A. discriminate A.
  - unfold is_fkey in A. apply andb_true_iff in Hf as (Hf & _). apply beqb_eq in A, Hf. rewrite A in Hf. discriminate Hf.
Qed.
Lemma add_constraints S rest : forall pre, ct_schemas cat = pre ++ rest ->
  each_in (do_op d cur) (flat_map (schema_ops d cat) rest) (Some (at_start S (flat_map (index_ops d cat) tables ++ flat_map (schema_ops d cat) pre)))
  = Some (at_start S (all_ops d cat)).
Proof.
  induction rest as [|s rest IH]; intros pre E; [rewrite app_nil_r in E; subst pre; reflexivity|].
  set (ix := flat_map (index_ops d cat) tables) in *. cbn [flat_map]. rewrite each_app. change (schema_ops d cat s) with (flat_map (early_ops d cat) (schema_tables s) ++ flat_map (fkey_ops d cat) (schema_tables s)). rewrite each_app.
  assert (Hs : In s (ct_schemas cat)) by (rewrite E; apply in_or_app; right; left; reflexivity).
  assert (Ea : all_ops d cat = (ix ++ flat_map (schema_ops d cat) pre) ++ flat_map (early_ops d cat) (schema_tables s) ++ flat_map (fkey_ops d cat) (schema_tables s) ++ flat_map (schema_ops d cat) rest).
  { unfold all_ops. fold ix. rewrite E, flat_map_app. cbn [flat_map]. change (schema_ops d cat s) with (flat_map (early_ops d cat) (schema_tables s) ++ flat_map (fkey_ops d cat) (schema_tables s)). rewrite <- !app_assoc. reflexivity. }
  assert (In_t : forall e, In e (schema_tables s) -> In e tables) by (intros e He; apply in_flat_map; exists s; split; [exact Hs|exact He]).
  rewrite (add_ops S _ _ _ Ea).
  2:{ intros l1 o l2 Eo No Io. assert (Ho : In o (flat_map (early_ops d cat) (schema_tables s))) by (rewrite Eo; apply in_or_app; right; left; reflexivity).
      apply in_flat_map in Ho as (e & He & Ho). apply in_map_iff in Ho as (c & <- & Hc). apply filter_In in Hc as (Hc & Ac). specialize (In_t e He).
      apply (accepted_key d cat D R S _ e c In_t Hc (not_first e c In_t Hc (or_introl Ac)) Io No). apply (target_there S _ e c In_t Hc).
      right. intros F. exfalso. unfold added_early in Ac. unfold foreign in F. rewrite F in Ac. rewrite andb_false_r in Ac. discriminate Ac. }
  rewrite (add_ops S _ (flat_map (fkey_ops d cat) (schema_tables s)) (flat_map (schema_ops d cat) rest)).
  2:{ rewrite Ea, <- !app_assoc. reflexivity. }
  2:{ intros l1 o l2 Eo No Io. assert (Ho : In o (flat_map (fkey_ops d cat) (schema_tables s))) by (rewrite Eo; apply in_or_app; right; left; reflexivity).
      apply in_flat_map in Ho as (e & He & Ho). apply in_map_iff in Ho as (c & <- & Hc). apply filter_In in Hc as (Hc & Ac). apply andb_true_iff in Ac as (Ac & _). pose proof (In_t e He) as Ht.
      apply (accepted_key d cat D R S _ e c Ht Hc (not_first e c Ht Hc (or_intror Ac)) Io No). apply (target_there S _ e c Ht Hc).
      destruct (rs_order _ _ R) as [Dm|B]; [left; exact Dm|right]. intros F. apply in_map_iff in He as (t & Ee & Hts). subst e. cbn [snd] in Hc.
      destruct (B pre s rest t c E Hts Hc F) as (s' & u & Hs' & Hu & Et & Am & Q).
      assert (Hu' : In (sc_name s', u) tables) by (apply in_tables; [rewrite E; apply in_app_or in Hs' as [Hs'|[<-|[]]]; apply in_or_app; [left; exact Hs'|right; left; reflexivity]|exact Hu]).
      exists (sc_name s', u). split; [exact Hu'|]. split; [exact Et|]. split; [exact Am|]. split; [exact Q|].
      split; intros o Ho; rewrite !in_app_iff.
      - left. left. left. apply in_flat_map. exists (sc_name s', u). split; assumption.
      - apply in_app_or in Hs' as [Hs'|[<-|[]]].
        + left. left. right. apply in_flat_map. exists s'. split; [exact Hs'|]. unfold schema_ops. apply in_or_app. left. apply in_flat_map. exists (sc_name s', u). split; [apply in_map; exact Hu|exact Ho].
        + left. right. apply in_flat_map. exists (sc_name s, u). split; [apply in_map; exact Hu|exact Ho]. }
  specialize (IH (pre ++ [s])). rewrite flat_map_app in IH. cbn [flat_map] in IH. rewrite app_nil_r in IH. change (schema_ops d cat s) with (flat_map (early_ops d cat) (schema_tables s) ++ flat_map (fkey_ops d cat) (schema_tables s)) in IH. rewrite <- !app_assoc in *. apply IH. exact E.
Qed.

(** ** What is there in the end *)
Lemma ops_at e : In e tables ->
  Permutation (keys_at (place_of e) (all_ops d cat)) (map (fun c => (conmeant c, false)) (filter (added_early d) (tb_constraints (snd e)) ++ live_fkeys (snd e)))
  /\ Permutation (indexes_at (place_of e) (all_ops d cat)) (map (ixmeant d cat e) (tb_indexes (snd e))).
Proof.
  intros H.
  assert (K1 : forall l, keys_at (place_of e) (map (key_op d cat e) l) = map (fun c => (conmeant c, false)) l) by (induction l as [|c l IH]; [reflexivity|]; unfold keys_at in *; cbn [map flat_map key_op fst snd]; rewrite qeqb_refl; cbn [app]; rewrite IH; reflexivity).
  assert (K2 : forall l, indexes_at (place_of e) (map (key_op d cat e) l) = []) by (induction l as [|c l IH]; [reflexivity|]; unfold indexes_at in *; cbn [map flat_map key_op fst snd]; rewrite qeqb_refl; exact IH).
  assert (K3 : forall l, keys_at (place_of e) (map (index_op d cat e) l) = []) by (induction l as [|c l IH]; [reflexivity|]; unfold keys_at in *; cbn [map flat_map index_op fst snd]; rewrite qeqb_refl; exact IH).
  assert (K4 : forall l, indexes_at (place_of e) (map (index_op d cat e) l) = map (ixmeant d cat e) l) by (induction l as [|c l IH]; [reflexivity|]; unfold indexes_at in *; cbn [map flat_map index_op fst snd]; rewrite qeqb_refl; cbn [app]; rewrite IH; reflexivity).
  set (F := fun e => index_ops d cat e ++ early_ops d cat e ++ fkey_ops d cat e).
  assert (P : forall o e', In o (F e') -> fst o = place_of e').
  { intros o e' Ho. unfold F in Ho. rewrite !in_app_iff in Ho. destruct Ho as [Ho|[Ho|Ho]]; apply in_map_iff in Ho as (a & <- & _); reflexivity. }
  assert (O : forall q l', (forall o : op, In o l' -> fst o <> q) -> keys_at q l' = [] /\ indexes_at q l' = []).
  { clear. intros q l' X. induction l' as [|o l' IH]; [split; reflexivity|]. unfold keys_at, indexes_at in *. cbn [flat_map]. destruct (qeqb_spec (fst o) q) as [Z|_]; [exfalso; exact (X o (or_introl eq_refl) Z)|]. apply IH. intros o' Ho'. apply X. right. exact Ho'. }
  assert (G : exists a b, flat_map F tables = a ++ F e ++ b /\ (forall o, In o a -> fst o <> place_of e) /\ forall o, In o b -> fst o <> place_of e).
  { pose proof (places_apart d cat R) as N. apply in_split in H as (a & b & Ea). rewrite Ea in *. rewrite map_app in N. cbn [map] in N. apply NoDup_remove_2 in N. exists (flat_map F a), (flat_map F b).
    split; [rewrite flat_map_app; reflexivity|]. split; intros o Ho Z; apply in_flat_map in Ho as (e' & He' & Ho); apply N; rewrite <- Z, (P o e' Ho); apply in_or_app; [left|right]; apply in_map; exact He'. }
  destruct G as (a & b & Eg & Ga & Gb). destruct (O _ _ Ga) as (A1 & A2), (O _ _ Gb) as (B1 & B2). split.
  - unfold keys_at at 1. rewrite (Permutation_flat_map _ (ops_are d cat)). fold F. rewrite Eg, !flat_map_app. fold (keys_at (place_of e) a) (keys_at (place_of e) b) (keys_at (place_of e) (F e)).
    rewrite A1, B1, app_nil_r. cbn [app]. unfold F, keys_at. rewrite !flat_map_app. unfold index_ops, early_ops, fkey_ops.
    fold (keys_at (place_of e) (map (index_op d cat e) (tb_indexes (snd e)))) (keys_at (place_of e) (map (key_op d cat e) (filter (added_early d) (tb_constraints (snd e))))) (keys_at (place_of e) (map (key_op d cat e) (live_fkeys (snd e)))).
    rewrite K3, !K1, map_app. reflexivity.
  - unfold indexes_at at 1. rewrite (Permutation_flat_map _ (ops_are d cat)). fold F. rewrite Eg, !flat_map_app. fold (indexes_at (place_of e) a) (indexes_at (place_of e) b) (indexes_at (place_of e) (F e)).
    rewrite A2, B2, app_nil_r. cbn [app]. unfold F, indexes_at. rewrite !flat_map_app. unfold index_ops, early_ops, fkey_ops.
    fold (indexes_at (place_of e) (map (index_op d cat e) (tb_indexes (snd e)))) (indexes_at (place_of e) (map (key_op d cat e) (filter (added_early d) (tb_constraints (snd e))))) (indexes_at (place_of e) (map (key_op d cat e) (live_fkeys (snd e)))).
    rewrite K4, !K2, !app_nil_r. reflexivity.
Qed.
Lemma same_at_end S : (forall s, In s (ct_schemas cat) -> In (sc_name s) S) -> same_database d cat (at_start S (all_ops d cat)).
Proof.
  intros HS. split; [exact HS|]. unfold state, start. cbn [l_tables]. rewrite map_map. rewrite <- (map_id tables) at 1. apply Forall2_each. intros e He.
  destruct (ops_at e He) as (P1 & P2). unfold same_table. cbn [grow base_of lt_place lt_columns lt_constraints lt_indexes app].
  split; [reflexivity|]. split; [reflexivity|]. split; [|exact P2].
  rewrite P1, <- map_app. rewrite (map_ext_in (fun c => (conmeant c, con_notvalid c)) (fun c => (conmeant c, false))).
  - apply Permutation_map. symmetry. exact (constraint_parts d cat D R e He).
  - intros c Hc. rewrite (proj1 (proj2 (rt_constraint _ _ _ _ (restorable_at d cat R e He) c Hc))). reflexivity.
Qed.
Lemma dump_loads x : l_tables x = [] -> exists c y,
  dump_constraints d cat = Ok c
  /\ load_files d cur [dump_schema d cat [] (fun _ => ([], [])); dump_indexes d cat; c] x = Some y /\ same_database d cat y.
Proof.
  intros X. destruct (constraints_read d cat D R) as (c & Ec & Rc).
  destruct (create_schemas (ct_schemas cat) x) as (y & Ey & Ty & _ & Sy); [intros s Hs; exact (proj1 (rs_schemas _ _ R s Hs))|].
  exists c, (at_start (l_schemas y) (all_ops d cat)). split; [exact Ec|]. split; [|exact (same_at_end _ Sy)].
  assert (L1 : load_file d cur (dump_schema d cat [] (fun _ => ([], []))) x = Some (start d cat (l_schemas y))).
  { unfold load_file. rewrite (schema_read d cat D R). cbn [andthen]. rewrite each_app, Ey.
    assert (Eb : y = LDb (l_schemas y) (map (base_of d cat) [])) by (destruct y; cbn in *; congruence). rewrite Eb at 1.
    exact (create_tables (l_schemas y) tables Sy [] eq_refl). }
  assert (L2 : load_file d cur (dump_indexes d cat) (start d cat (l_schemas y)) = Some (at_start (l_schemas y) (flat_map (index_ops d cat) tables))).
  { unfold load_file. rewrite (indexes_read d cat D R). cbn [andthen]. rewrite (each_both _ _ _ _ does_indexes). apply add_indexes. }
  unfold load_files, each_in. cbn [fold_left andthen]. rewrite L1. cbn [andthen]. rewrite L2. cbn [andthen].
  unfold load_file. rewrite Rc. cbn [andthen]. rewrite (each_both _ _ _ _ does_adds).
  pose proof (add_constraints (l_schemas y) (ct_schemas cat) [] eq_refl) as F. cbn [flat_map] in F. rewrite app_nil_r in F. exact F.
Qed.
End Loading.
