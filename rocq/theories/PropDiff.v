(** Properties C35 to C38, C40 to C42, C64 and C65: generated migrations. *)
From Coq Require Import Permutation.
From Verif Require Import GoStr GoStrFacts ModelSq ModelHistory ModelMigrate ModelCatalog ModelCache ModelDdl ModelDiff ModelDiffSql SpecDiff
  DiffLookup DiffFacts DiffSelf DiffSqlite DiffPlan DiffSegments DiffDrops DiffKeys DiffCreate DiffOrder DiffNames DiffWarn DiffRun DiffWitness.

(** ** C35: a catalog against itself *)
Theorem C35_no_changes : forall d flt prefix c drop, d = MySQL \/ d = Postgres \/ d = SQLServer ->
  unique_names (ct_schemas c) -> named_keys (ct_schemas c) -> readable_types d (ct_schemas c) ->
  results d flt prefix c c drop = Ok ([], []).
Proof. intros d flt prefix c drop H. apply self_is_quiet. destruct H as [->|[->|H]]; try rewrite H; reflexivity. Qed.
Print Assumptions C35_no_changes.
Theorem C35_no_changes_sqlite : forall flt prefix c drop,
  sqlite_names (ct_schemas c) -> sqlite_constraints (ct_schemas c) ->
  results SQLite flt prefix c c drop = Ok ([], []).
Proof. exact self_is_quiet_sqlite. Qed.
Print Assumptions C35_no_changes_sqlite.
Example C35_example : forall d, unique_names (ct_schemas (old_db d)) /\ named_keys (ct_schemas (old_db d)) /\ readable_types d (ct_schemas (old_db d)).
Proof. intro d. split; [apply old_unique|]. split; [apply old_named|apply old_readable]. Qed.
Example C35_example_sqlite : sqlite_names (ct_schemas (old_db SQLite)) /\ sqlite_constraints (ct_schemas (old_db SQLite)).
Proof.
  destruct (old_unique SQLite) as (U & N). split.
  - split; [exact U|]. intros s t Hs Ht. destruct (N s t Hs Ht) as (? & _ & ?). auto.
  - intros s t a b Hs Ht _ Ha Hb. split.
    + each Hs. each Ht; each Ha; auto.
    + each Hs. each Ht; each Ha; each Hb; reflexivity.
Qed.

(** ** C36: without DropObjects *)
(** Missing from the full claim: on SQL Server foreign keys between two tables that are also
    joined by a new foreign key; constraints that change their kind. *)
Theorem C36_no_data_lost : forall d flt prefix src dest files ws,
  results d flt prefix src dest false = Ok (files, ws) -> forall s, In s (forward files) -> destroys s = false.
Proof. exact nothing_destroyed. Qed.
Print Assumptions C36_no_data_lost.
Theorem C36_indexes_recreated : forall d flt prefix src dest files ws,
  results d flt prefix src dest false = Ok (files, ws) -> forall pre t n post, forward files = pre ++ QDropIndex t n :: post ->
  index_comes_back t n post.
Proof. exact indexes_come_back. Qed.
Print Assumptions C36_indexes_recreated.
Theorem C36_constraints_recreated_partial : forall d flt prefix src dest files ws, d = MySQL \/ d = Postgres \/ d = SQLServer ->
  unique_names (ct_schemas src) -> unique_names (ct_schemas dest) ->
  readable_types d (ct_schemas src) -> readable_types d (ct_schemas dest) -> named_keys (ct_schemas dest) ->
  same_kinds (ct_schemas src) (ct_schemas dest) -> single_primary_keys (ct_schemas src) ->
  (d = SQLServer -> new_pairs (ct_schemas src) (ct_schemas dest)) ->
  results d flt prefix src dest false = Ok (files, ws) ->
  forall pre t c post, forward files = pre ++ QDropConstraint t c :: post -> constraint_comes_back t c post.
Proof. intros d flt prefix src dest files ws H. apply constraints_come_back. destruct H as [->|[->|H]]; try rewrite H; reflexivity. Qed.
Print Assumptions C36_constraints_recreated_partial.
(** k1 is dropped, but not added again; if there is no new table the program panics.  On MySQL
    a foreign key is replaced by a primary key of the same name. *)
Theorem C36_refuted :
  (exists src dest files ws pre t c post, results SQLServer no_float (B"m") src dest false = Ok (files, ws)
     /\ forward files = pre ++ QDropConstraint t c :: post /\ con_type c = FOREIGN_KEY
     /\ forall x, In x post -> match x with QAddConstraint _ c' _ => con_name c' <> con_name c | QAddUsingIndex _ _ => False | _ => True end)
  /\ (exists src dest, results SQLServer no_float (B"m") src dest false = Panic)
  /\ (exists src dest files ws pre t c post, results MySQL no_float (B"m") src dest false = Ok (files, ws)
     /\ forward files = pre ++ QDropConstraint t c :: post /\ con_type c = FOREIGN_KEY /\ keys_added post = []).
Proof.
  split; [|split].
  - set (R := results SQLServer no_float (B"m") joined_old joined_new false).
    exists joined_old, joined_new, (fst (got R)), (snd (got R)).
    exists [], ([], B"a"), (a_fkey (B"dbo") (B"a") (B"k1") [B"x"] (B"dbo") (B"b") [B"id"]). eexists.
    split; [vm_compute; reflexivity|]. split; [vm_compute; reflexivity|]. split; [reflexivity|].
    intros x Hx. vm_compute in Hx. repeat (destruct Hx as [Hx|Hx]; [subst x; try exact I; intro Z; discriminate Z|]). contradiction.
  - exists joined_old, joined_new'. vm_compute. reflexivity.
  - set (R := results MySQL no_float (B"m") renamed_old renamed_new false).
    exists renamed_old, renamed_new, (fst (got R)), (snd (got R)).
    exists [], ([], B"t"), (a_fkey (B"db") (B"t") (B"k") [B"x"] (B"db") (B"t") [B"y"]). eexists.
    split; [vm_compute; reflexivity|]. split; [vm_compute; reflexivity|]. split; reflexivity.
Qed.
Print Assumptions C36_refuted.
(** The columns of a foreign key that SQL Server has to drop change. *)
Definition keyed (ty : bytes) : catalog :=
  one_schema SQLServer (B"dbo") [joined_table ty [B"k1"; B"k2"]; b_table].
Lemma keyed_unique : forall ty, unique_names (ct_schemas (keyed ty)).
Proof.
  intro ty. split; [split|].
  - apply nodupb_ok. reflexivity.
  - intros s H. each H. split; [apply nodupb_ok; reflexivity|]. intros t H. each H; reflexivity.
  - intros s t H H'. each H. each H'; repeat split; apply nodupb_ok; reflexivity.
Qed.
Example C36_example : let src := ct_schemas (keyed (B"INT")) in let dest := ct_schemas (keyed (B"BIGINT")) in
  unique_names src /\ unique_names dest /\ readable_types SQLServer src /\ readable_types SQLServer dest /\ named_keys dest
  /\ same_kinds src dest /\ single_primary_keys src /\ new_pairs src dest
  /\ exists pre t c post, stmts_of (results SQLServer no_float (B"m") (keyed (B"INT")) (keyed (B"BIGINT")) false) = pre ++ QDropConstraint t c :: post.
Proof.
  split; [apply keyed_unique|]. split; [apply keyed_unique|].
  split; [intros s t c H H' H''; each H; each H'; each H''; eexists; vm_compute; reflexivity|].
  split; [intros s t c H H' H''; each H; each H'; each H''; eexists; vm_compute; reflexivity|].
  split; [intros s t c H H' H'' _; each H; each H'; each H''; discriminate|].
  split. { intros s t a b (ss & ds & H1 & H2 & _ & H3 & H4 & E) Ha Hb N. each H1. each H2. each H3; each H4; try discriminate E; each Ha; each Hb; try discriminate N; reflexivity. }
  split; [intros s t a b H H' Ha Hb Ta Tb; each H; each H'; each Ha; each Hb; try discriminate Ta; try discriminate Tb; reflexivity|].
  split.
  - intros c s t k (u & v & (ss & ds & H1 & H2 & _ & H3 & H4 & E) & Hc & Tc & _ & N) _ _ _ _. each H1. each H2. each H4; each H3; try discriminate E; each Hc; try discriminate Tc.
    + specialize (N (a_fkey (B"dbo") (B"a") (B"k1") [B"x"] (B"dbo") (B"b") [B"id"]) ltac:(left; reflexivity) eq_refl). discriminate N.
    + specialize (N (a_fkey (B"dbo") (B"a") (B"k2") [B"x"] (B"dbo") (B"b") [B"id"]) ltac:(right; left; reflexivity) eq_refl). discriminate N.
  - exists [], ([], B"a"), (a_fkey (B"dbo") (B"a") (B"k1") [B"x"] (B"dbo") (B"b") [B"id"]). eexists. vm_compute. reflexivity.
Qed.

(** ** C37: what is created *)
(** Missing from the full claim: on SQLite, a catalog without a schema. *)
Theorem C37_schemas : forall d flt prefix src dest drop files ws, d = MySQL \/ d = Postgres \/ d = SQLServer ->
  unique_tables (ct_schemas src) -> unique_tables (ct_schemas dest) ->
  readable_types d (ct_schemas src) -> readable_types d (ct_schemas dest) ->
  results d flt prefix src dest drop = Ok (files, ws) ->
  schemas_created (forward files) = new_schemas (ct_schemas src) (ct_schemas dest).
Proof. intros d flt prefix src dest drop files ws H. apply schemas_are_created. destruct H as [->|[->|H]]; try rewrite H; reflexivity. Qed.
Print Assumptions C37_schemas.
Theorem C37_tables : forall d flt prefix src dest drop files ws, d = MySQL \/ d = Postgres \/ d = SQLServer ->
  unique_tables (ct_schemas src) -> unique_tables (ct_schemas dest) ->
  readable_types d (ct_schemas src) -> readable_types d (ct_schemas dest) ->
  results d flt prefix src dest drop = Ok (files, ws) ->
  tables_created (forward files)
  = map (fun t => (qualify (ct_current src) (tb_schema t) (tb_name t), t)) (new_tables (ct_schemas src) (ct_schemas dest)).
Proof. intros d flt prefix src dest drop files ws H. apply tables_are_created. destruct H as [->|[->|H]]; try rewrite H; reflexivity. Qed.
Print Assumptions C37_tables.
Theorem C37_columns : forall d flt prefix src dest drop files ws, d = MySQL \/ d = Postgres \/ d = SQLServer ->
  unique_names (ct_schemas src) -> unique_names (ct_schemas dest) ->
  readable_types d (ct_schemas src) -> readable_types d (ct_schemas dest) ->
  results d flt prefix src dest drop = Ok (files, ws) ->
  columns_added (forward files)
  = flat_map (fun '(s, t) => map (fun c => (home d (ct_current src) t, c)) (extra_columns t s))
      (old_tables (ct_schemas src) (ct_schemas dest)).
Proof. intros d flt prefix src dest drop files ws H. apply columns_are_added. destruct H as [->|[->|H]]; try rewrite H; reflexivity. Qed.
Print Assumptions C37_columns.
(** SQLite: some tables are rebuilt under another name, with all columns of the destination. *)
Theorem C37_sqlite_partial : forall flt prefix src dest drop files ws s ss d ds,
  ct_schemas src = s :: ss -> ct_schemas dest = d :: ds -> sqlite_names (ct_schemas src) -> sqlite_names (ct_schemas dest) ->
  results SQLite flt prefix src dest drop = Ok (files, ws) ->
  exists rebuild : table * table -> bool,
  let rebuilt := filter rebuild (old_tables_sqlite s d) in
  let kept := filter (fun p => negb (rebuild p)) (old_tables_sqlite s d) in
  map (fun '(q, t) => (q, tb_columns t)) (tables_created (forward files))
  = map (fun t => (([], tb_name t), tb_columns t)) (new_tables_sqlite s d)
    ++ map (fun '(_, t) => (([], interim t), tb_columns t)) rebuilt
  /\ tables_renamed (forward files) = map (fun '(_, t) => (([], interim t), tb_name t)) rebuilt
  /\ columns_added (forward files) = flat_map (fun '(u, t) => map (fun c => (([], tb_name t), c)) (extra_columns t u)) kept
  /\ (drop = false -> rebuilt = []).
Proof. intros flt prefix src dest drop files ws s ss d ds E1 E2 N1 N2 H. exists (was_copied drop). exact (sqlite_creates _ _ _ _ _ _ _ _ _ _ _ E1 E2 N1 N2 H). Qed.
Print Assumptions C37_sqlite_partial.
(** If there is no schema in the source, a table that is to be ignored is created. *)
Theorem C37_refuted : exists src dest files ws q t, results SQLite no_float (B"m") src dest false = Ok (files, ws)
  /\ In (q, t) (tables_created (forward files)) /\ tb_ignore t = true.
Proof.
  set (R := results SQLite no_float (B"m") (a_catalog SQLite [] []) ignored_new false).
  exists (a_catalog SQLite [] []), ignored_new, (fst (got R)), (snd (got R)), ([], B"t"), (Table [] (B"t") [] false [a_column (B"x") (B"INT")] [] [] true).
  split; [vm_compute; reflexivity|]. split; [|reflexivity].
  assert (T : tables_created (forward (fst (got R))) = [(([], B"t"), Table [] (B"t") [] false [a_column (B"x") (B"INT")] [] [] true)]) by (vm_compute; reflexivity).
  rewrite T. left. reflexivity.
Qed.
Print Assumptions C37_refuted.
Example C37_example : forall d, d = MySQL \/ d = Postgres \/ d = SQLServer ->
  map tb_name (new_tables (ct_schemas (old_db d)) (ct_schemas (new_db d))) = [B"language"]
  /\ map (fun '(s, t) => map col_name (extra_columns t s)) (old_tables (ct_schemas (old_db d)) (ct_schemas (new_db d))) = [[B"born"]; [B"language_id"]]
  /\ (unique_names (ct_schemas (old_db d)) /\ unique_names (ct_schemas (new_db d)))
  /\ (readable_types d (ct_schemas (old_db d)) /\ readable_types d (ct_schemas (new_db d)))
  /\ exists x, results d no_float (B"m") (old_db d) (new_db d) true = Ok x.
Proof.
  intros d H. split; [reflexivity|]. split; [reflexivity|]. split; [split; [apply old_unique|apply new_unique]|].
  split; [split; [apply old_readable|apply new_readable]|]. destruct H as [->|[->|H]]; try subst d; eexists; vm_compute; reflexivity.
Qed.

(** ** C38: superfluous columns *)
(** Missing from the full claim: tables without another difference, for which the claim is
    false. *)
Theorem C38_dropped_partial : forall d flt prefix src dest files ws, d = MySQL \/ d = Postgres \/ d = SQLServer ->
  unique_names (ct_schemas src) -> unique_names (ct_schemas dest) ->
  readable_types d (ct_schemas src) -> readable_types d (ct_schemas dest) ->
  results d flt prefix src dest true = Ok (files, ws) ->
  (forall s t c, In (s, t) (old_tables (ct_schemas src) (ct_schemas dest)) -> altered_table s t -> In c (extra_columns s t) ->
     In (home d (ct_current src) t, col_name c) (columns_dropped (forward files)))
  /\ (forall q n, In (q, n) (columns_dropped (forward files)) -> exists s t c, In (s, t) (old_tables (ct_schemas src) (ct_schemas dest))
        /\ In c (extra_columns s t) /\ q = home d (ct_current src) t /\ n = col_name c).
Proof. intros d flt prefix src dest files ws H. apply superfluous_columns. destruct H as [->|[->|H]]; try rewrite H; reflexivity. Qed.
Print Assumptions C38_dropped_partial.
Theorem C38_sqlite_partial : forall flt prefix src dest files ws s ss d ds,
  ct_schemas src = s :: ss -> ct_schemas dest = d :: ds -> sqlite_names (ct_schemas src) -> sqlite_names (ct_schemas dest) ->
  results SQLite flt prefix src dest true = Ok (files, ws) ->
  (forall u t c, In (u, t) (old_tables_sqlite s d) -> altered_table u t -> In c (extra_columns u t) ->
     In (([], tb_name t), col_name c) (columns_dropped (forward files))
     \/ (In (([], interim t), tb_columns t) (map (fun '(q, x) => (q, tb_columns x)) (tables_created (forward files)))
         /\ In (([], interim t), tb_name t) (tables_renamed (forward files))))
  /\ (forall q n, In (q, n) (columns_dropped (forward files)) -> exists u t c, In (u, t) (old_tables_sqlite s d)
        /\ In c (extra_columns u t) /\ q = ([], tb_name t) /\ n = col_name c).
Proof. exact superfluous_columns_sqlite. Qed.
Print Assumptions C38_sqlite_partial.
(** A superfluous column is not dropped, as nothing else about the table changes. *)
Theorem C38_refuted : forall d, d <> Other ->
  exists src dest s t c, In (s, t) (old_tables (ct_schemas src) (ct_schemas dest)) /\ In c (extra_columns s t)
    /\ results d no_float (B"m") src dest true = Ok ([], []).
Proof.
  intros d H. exists (extra_old d), (extra_new d). eexists _, _, _. split; [left; reflexivity|]. split; [left; reflexivity|].
  destruct d; try contradiction; vm_compute; reflexivity.
Qed.
Print Assumptions C38_refuted.
Example C38_example : forall d, exists s t c, In (s, t) (old_tables (ct_schemas (old_db d)) (ct_schemas (new_db d))) /\ altered_table s t
  /\ In c (extra_columns s t) /\ col_name c = B"note".
Proof.
  intro d. exists (actor (B"db")), (actor2 (B"db")), (a_column (B"note") (B"TEXT")). split; [left; reflexivity|]. split; [left; discriminate|].
  split; [left; reflexivity|reflexivity].
Qed.

(** ** C40: the order of foreign keys *)
Theorem C40_order : forall d flt prefix src dest drop files ws, d <> Other ->
  unique_tables (ct_schemas src) -> unique_tables (ct_schemas dest) ->
  readable_types d (ct_schemas src) -> readable_types d (ct_schemas dest) -> same_kinds (ct_schemas src) (ct_schemas dest) ->
  results d flt prefix src dest drop = Ok (files, ws) ->
  precedes drops_key drops_table (forward files) /\ precedes creates_table adds_key (forward files).
Proof. exact keys_in_order. Qed.
Print Assumptions C40_order.
(** Missing from the full claim: on Postgres, tables that refer to each other. *)
Theorem C40_owner_partial : forall d flt prefix src dest drop files ws, d <> Other ->
  unique_tables (ct_schemas src) -> unique_tables (ct_schemas dest) ->
  readable_types d (ct_schemas src) -> readable_types d (ct_schemas dest) -> same_kinds (ct_schemas src) (ct_schemas dest) ->
  (d = Postgres -> one_owner (ct_schemas src) /\ one_owner (ct_schemas dest)) ->
  results d flt prefix src dest drop = Ok (files, ws) ->
  forall x, In x (forward files) -> at_own_table (ct_current src) x.
Proof. exact keys_at_own_table. Qed.
Print Assumptions C40_owner_partial.
Theorem C40_refuted : exists src dest files ws x, results Postgres no_float (B"m") src dest false = Ok (files, ws)
  /\ In x (forward files) /\ ~ at_own_table (ct_current src) x.
Proof.
  set (R := results Postgres no_float (B"m") circle_old circle_new false).
  set (x := QAddConstraint ([], B"a") (a_fkey (B"public") (B"b") (B"b_fkey") [B"x"] (B"public") (B"a") [B"x"]) true).
  exists circle_old, circle_new, (fst (got R)), (snd (got R)), x.
  split; [vm_compute; reflexivity|]. split; [|].
  { assert (T : nth 1 (forward (fst (got R))) (QPragma true) = x) by (vm_compute; reflexivity).
    rewrite <- T. apply nth_In. vm_compute. repeat constructor. }
  intro H. specialize (H eq_refl). discriminate H.
Qed.
Print Assumptions C40_refuted.
Example C40_example : forall d, unique_tables (ct_schemas (old_db d)) /\ unique_tables (ct_schemas (new_db d))
  /\ same_kinds (ct_schemas (old_db d)) (ct_schemas (new_db d)) /\ one_owner (ct_schemas (old_db d)) /\ one_owner (ct_schemas (new_db d)).
Proof. intro d. split; [apply old_unique|]. split; [apply new_unique|]. split; [apply both_kinds|]. split; [apply old_owner|apply new_owner]. Qed.
Example C40_example_stmts : existsb adds_key (stmts_of (results Postgres no_float (B"m") (old_db Postgres) (new_db Postgres) true)) = true
  /\ existsb creates_table (stmts_of (results Postgres no_float (B"m") (old_db Postgres) (new_db Postgres) true)) = true
  /\ existsb drops_key (stmts_of (results Postgres no_float (B"m") (new_db Postgres) (old_db Postgres) true)) = true
  /\ existsb drops_table (stmts_of (results Postgres no_float (B"m") (new_db Postgres) (old_db Postgres) true)) = true.
Proof. vm_compute. auto. Qed.

(** ** C41: the names of the files *)
(** Missing from the full claim: a hundred files and more. *)
Theorem C41_alphabetical_partial : forall d flt prefix src dest drop files ws,
  results d flt prefix src dest drop = Ok (files, ws) -> List.length (filter (fun f => negb (fl_undo f)) files) < 100 ->
  alphabetical (map fl_name files) /\ sort_strings (map fl_name files) = map fl_name files.
Proof.
  intros d flt prefix src dest drop files ws H L. pose proof (names_in_order _ _ _ _ _ _ _ _ H L) as A. split; [exact A|]. apply sort_alphabetical. exact A.
Qed.
Print Assumptions C41_alphabetical_partial.
Theorem C41_refuted : exists src dest files ws, results Postgres no_float (B"m") src dest false = Ok (files, ws)
  /\ sort_strings (map fl_name files) <> map fl_name files.
Proof.
  set (R := results Postgres no_float (B"m") many_old many_new false).
  exists many_old, many_new, (fst (got R)), (snd (got R)). split; [vm_compute; reflexivity|].
  set (l := map fl_name (fst (got R))). intro H.
  assert (T : beqb (nth 30 (sort_strings l) []) (nth 30 l []) = false) by (vm_compute; reflexivity).
  rewrite H in T. assert (T' : beqb (nth 30 l []) (nth 30 l []) = true) by (apply beqb_eq; reflexivity).
  pose proof (eq_trans (eq_sym T) T') as D. discriminate D.
Qed.
Print Assumptions C41_refuted.
Example C41_example : forall d, d <> Other -> exists files ws, results d no_float (B"m") (old_db d) (new_db d) true = Ok (files, ws)
  /\ List.length (filter (fun f => negb (fl_undo f)) files) < 100.
Proof.
  intros d H. set (R := results d no_float (B"m") (old_db d) (new_db d) true). exists (fst (got R)), (snd (got R)).
  split; [destruct d; try contradiction; vm_compute; reflexivity|]. apply Nat.ltb_lt. destruct d; try contradiction; vm_compute; reflexivity.
Qed.

(** ** C42: warnings *)
(** Missing from the full claim: a scale that becomes 0, a limit where there was none, and new
    NOT NULL columns, for which it is false. *)
Theorem C42_warned_partial : forall flt prefix src dest drop files ws,
  unique_names (ct_schemas src) -> unique_names (ct_schemas dest) ->
  readable_types Postgres (ct_schemas src) -> readable_types Postgres (ct_schemas dest) ->
  results Postgres flt prefix src dest drop = Ok (files, ws) ->
  forall s t a b x y, In (s, t) (old_tables (ct_schemas src) (ct_schemas dest)) ->
    In a (tb_columns s) -> In b (tb_columns t) -> col_name a = col_name b -> col_ignore a = false -> col_ignore b = false ->
    normalize_column_type Postgres (col_type a) = Ok x -> normalize_column_type Postgres (col_type b) = Ok y -> harmful x y ->
    exists w, In w ws /\ wn_table w = qualify (ct_current src) (tb_schema t) (tb_name t) /\ wn_column w = col_name b.
Proof. exact harmful_changes_warned. Qed.
Print Assumptions C42_warned_partial.
Theorem C42_refuted :
  let unwarned src dest := exists files, results Postgres no_float (B"m") src dest false = Ok (files, []) /\ forward files <> [] in
  unwarned (typed (B"NUMERIC(10,5)")) (typed (B"NUMERIC(10,0)"))
  /\ unwarned (typed (B"NUMERIC")) (typed (B"NUMERIC(3)"))
  /\ unwarned (typed (B"VARCHAR")) (typed (B"VARCHAR(3)"))
  /\ unwarned (typed (B"INT")) with_required.
Proof.
  repeat split; eexists; (split; [vm_compute; reflexivity|intro Z; discriminate Z]).
Qed.
Print Assumptions C42_refuted.
Example C42_example : exists s t a b x y, In (s, t) (old_tables (ct_schemas (old_db Postgres)) (ct_schemas (new_db Postgres)))
  /\ In a (tb_columns s) /\ In b (tb_columns t) /\ col_name a = col_name b
  /\ normalize_column_type Postgres (col_type a) = Ok x /\ normalize_column_type Postgres (col_type b) = Ok y /\ harmful x y.
Proof.
  exists (film (B"db")), (film2 (B"db")), (a_column (B"title") (B"VARCHAR(255)")), (a_column (B"title") (B"VARCHAR(100)")).
  exists (B"VARCHAR", B"255", []), (B"VARCHAR", B"100", []).
  split; [right; left; reflexivity|]. split; [right; left; reflexivity|]. split; [right; left; reflexivity|]. split; [reflexivity|].
  split; [vm_compute; reflexivity|]. split; [vm_compute; reflexivity|]. left. split; [split; reflexivity|].
  exists 255, 100. split; [vm_compute; reflexivity|]. split; [vm_compute; reflexivity|]. split; [split; repeat constructor|]. vm_compute. reflexivity.
Qed.

(** ** C64: missing foreign keys *)
Theorem C64_keys_are_added : forall d flt prefix src dest drop files ws, d = MySQL \/ d = Postgres ->
  unique_names (ct_schemas src) -> unique_names (ct_schemas dest) ->
  readable_types d (ct_schemas src) -> readable_types d (ct_schemas dest) -> named_keys (ct_schemas dest) ->
  same_kinds (ct_schemas src) (ct_schemas dest) ->
  results d flt prefix src dest drop = Ok (files, ws) ->
  Permutation (keys_added (forward files)) (new_keys (ct_schemas src) (ct_schemas dest)).
Proof. exact keys_are_added. Qed.
Print Assumptions C64_keys_are_added.
Example C64_example : forall d, (unique_names (ct_schemas (old_db d)) /\ unique_names (ct_schemas (new_db d)))
  /\ named_keys (ct_schemas (new_db d)) /\ same_kinds (ct_schemas (old_db d)) (ct_schemas (new_db d))
  /\ map con_name (new_keys (ct_schemas (old_db d)) (ct_schemas (new_db d))) = [B"film_language_id_fkey"].
Proof. intro d. split; [split; [apply old_unique|apply new_unique]|]. split; [apply new_named|]. split; [apply both_kinds|reflexivity]. Qed.
(** On SQL Server a new key can get lost: k3. *)
Example C64_not_on_sqlserver :
  map con_name (new_keys (ct_schemas joined_old) (ct_schemas joined_new)) = [B"c_fkey"; B"k3"]
  /\ map con_name (keys_added (stmts_of (results SQLServer no_float (B"m") joined_old joined_new false))) = [B"c_fkey"; B"c_fkey"; B"k2"].
Proof. vm_compute. auto. Qed.

(** ** C65: generated files are run *)
Theorem C65_run : forall d flt prefix src dest drop files ws,
  unique_tables (ct_schemas src) -> unique_tables (ct_schemas dest) -> readable_types d (ct_schemas src) -> readable_types d (ct_schemas dest) ->
  plain_names (ct_schemas src) -> plain_names (ct_schemas dest) -> plain (ct_current src) ->
  plain prefix -> prefix <> B"schema" -> prefix <> B"indexes" -> prefix <> B"constraints" ->
  results d flt prefix src dest drop = Ok (files, ws) ->
  NoDup (map fl_name files) /\ sort_and_filter (map fl_name files) = map fl_name (filter (fun f => negb (fl_undo f)) files).
Proof.
  intros d flt prefix src dest drop files ws U1 U2 R1 R2 P1 P2 P3. apply generated_files_run. unfold ordinary. auto 8.
Qed.
Print Assumptions C65_run.
Theorem C65_undo : forall d flt prefix src dest drop files ws,
  unique_tables (ct_schemas src) -> unique_tables (ct_schemas dest) -> readable_types d (ct_schemas src) -> readable_types d (ct_schemas dest) ->
  plain_names (ct_schemas src) -> plain_names (ct_schemas dest) -> plain (ct_current src) ->
  plain prefix -> results d flt prefix src dest drop = Ok (files, ws) ->
  (forall u, In u files -> fl_undo u = true ->
     exists a f b, files = a ++ f :: u :: b /\ fl_undo f = false /\ fl_name u = undo_name (fl_name f))
  /\ (forall f u, In f files -> In u files -> fl_undo f = false -> fl_name u = undo_name (fl_name f) ->
     fl_undo u = true /\ exists a b, files = a ++ f :: u :: b).
Proof.
  intros d flt prefix src dest drop files ws U1 U2 R1 R2 P1 P2 P3. apply undo_files_found. unfold ordinary. auto 8.
Qed.
Print Assumptions C65_undo.
Example C65_example : forall d, plain_names (ct_schemas (old_db d)) /\ plain_names (ct_schemas (new_db d)) /\ plain (ct_current (old_db d)) /\ plain (B"m").
Proof. intro d. split; [apply old_plain|]. split; [apply new_plain|]. split; apply plain_ok; reflexivity. Qed.
Example C65_example_files :
  match results Postgres no_float (B"m") (old_db Postgres) (new_db Postgres) true with
  | Ok (files, _) => map fl_undo files = [false; false; false; false; true; false; false]
  | _ => False
  end.
Proof. vm_compute. reflexivity. Qed.
(** A foreign key called x.undo is never added. *)
Example C65_not_plain :
  match results MySQL no_float (B"m") (one_schema MySQL (B"db") [a_table (B"db") (B"t") [a_column (B"x") (B"INT")] [] []]) dotted_new false with
  | Ok (files, _) => map fl_undo files = [false] /\ sort_and_filter (map fl_name files) = []
  | _ => False
  end.
Proof. vm_compute. auto. Qed.
