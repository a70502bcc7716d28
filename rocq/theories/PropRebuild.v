(** C92: migrations of SQLite databases keep the rows of the tables and columns that they do not drop. *)
From Coq Require Import Lia.
From Verif Require Import GoStr GoStrFacts ModelCatalog ModelDdl ModelDiff ModelDiffSql SpecDiff SpecRebuild RebuildFacts DiffFacts DiffSqlite.

(** The full statement: whatever the database contains, and whether or not foreign keys are checked, if the generated
    statements are accepted, then the tables and columns that are still asked for have the rows that they had. *)
Definition keeps_rows (src dest : catalog) (drop : bool) : Prop :=
  forall e flt prefix files warnings db db', agrees db src -> results SQLite flt prefix src dest drop = Ok (files, warnings) ->
    run_all e (forward files) db = Some db' -> data_stays drop dest db db'.

(** ** It does not hold *)
Definition a_column (t n ty : bytes) : column :=
  Column [] t n ty [] [] [] [] false false false false false [] [] false false [] false [] false.
Definition a_pkey (t : bytes) : constraint :=
  Constraint [] t [] PRIMARY_KEY [B"id"] [] [] [] [] [] [] [] [] [] [] false false false false false.
Definition a_fkey (t c u act : bytes) : constraint :=
  Constraint [] t [] FOREIGN_KEY [c] [] u [B"id"] [] act [] [] [] [] [] false false false false false.
Definition a_table (n : bytes) (cols : list column) (cons : list constraint) : table := Table [] n [] false cols cons [] false.
Definition sqlite_db (ts : list table) : catalog := Catalog SQLite [] [] [] [Schema [] ts false].
(** Users with a name of the type [ty], and orders of users. *)
Definition shop (ty act : bytes) : catalog :=
  sqlite_db [a_table (B"users") [a_column (B"users") (B"id") (B"INTEGER"); a_column (B"users") (B"name") ty] [a_pkey (B"users")];
             a_table (B"orders") [a_column (B"orders") (B"id") (B"INTEGER"); a_column (B"orders") (B"user_id") (B"INTEGER")]
               [a_pkey (B"orders"); a_fkey (B"orders") (B"user_id") (B"users") act]].
(** Employees and their managers. *)
Definition staff (ty : bytes) : catalog :=
  sqlite_db [a_table (B"staff") [a_column (B"staff") (B"id") (B"INTEGER"); a_column (B"staff") (B"boss") (B"INTEGER"); a_column (B"staff") (B"name") ty]
               [a_pkey (B"staff"); a_fkey (B"staff") (B"boss") (B"staff") (B"CASCADE")]].
Fixpoint a_row (l : list (bytes * bytes)) : row := fun c => match l with [] => Null | (n, v) :: l' => if beqb c n then Val v else a_row l' c end.
Definition shop_rows (n : bytes) : list row :=
  if beqb n (B"users") then [a_row [(B"id", B"1"); (B"name", B"Ann")]; a_row [(B"id", B"2"); (B"name", B"Bob")]]
  else [a_row [(B"id", B"7"); (B"user_id", B"1")]; a_row [(B"id", B"8"); (B"user_id", B"2")]].
Definition staff_rows (_ : bytes) : list row :=
  [a_row [(B"id", B"1"); (B"name", B"Ann")]; a_row [(B"id", B"2"); (B"boss", B"1"); (B"name", B"Bob")]].
(** Every statement is accepted; columns without a value are NULL. *)
Definition an_env (fks : bool) : env := Env fks (fun _ _ => false) (fun _ _ => Null).
Definition the_stmts (src dest : catalog) (drop : bool) : list stmt :=
  match results SQLite (fun _ => false) (B"1") src dest drop with Ok (files, _) => forward files | _ => [] end.
Definition after_run (e : env) (src dest : catalog) (drop : bool) (db : sdb) : option (list (bytes * list bytes * list (list val))) :=
  match run_all e (the_stmts src dest drop) db with
  | Some db' => Some (map (fun x => (st_name x, st_columns x, map (fun r => map r (st_columns x)) (st_rows x))) db')
  | None => None
  end.

Ltac distinct := repeat constructor; cbn; intuition discriminate.
Lemma sqlite_unique : forall ts, NoDup (map tb_name ts) -> (forall t, In t ts -> tb_schema t = []) -> unique_tables (ct_schemas (sqlite_db ts)).
Proof.
  intros ts N S. split; [repeat constructor; intros []|]. intros s [<-|[]]. split; [exact N|exact S].
Qed.

(** The name of the users gets another type: the table is rebuilt, and all orders of users are deleted. *)
Theorem C92_refuted : exists src dest, sqlite_names (ct_schemas src) /\ sqlite_names (ct_schemas dest) /\ ~ keeps_rows src dest true.
Proof.
  exists (shop (B"TEXT") (B"CASCADE")), (shop (B"VARCHAR(50)") (B"CASCADE")).
  assert (U : forall ty act, sqlite_names (ct_schemas (shop ty act))).
  { intros ty act. split; [apply sqlite_unique; [distinct|intros t [<-|[<-|[]]]; reflexivity]|].
    intros s t [<-|[]] [<-|[<-|[]]]; split; distinct. }
  split; [apply U|]. split; [apply U|]. intro K.
  assert (R : exists files w db', results SQLite (fun _ => false) (B"1") (shop (B"TEXT") (B"CASCADE")) (shop (B"VARCHAR(50)") (B"CASCADE")) true = Ok (files, w)
     /\ run_all (an_env true) (forward files) (rows_of (shop (B"TEXT") (B"CASCADE")) shop_rows) = Some db'
     /\ exists y, sfind db' (B"orders") = Some y /\ st_rows y = []).
  { eexists. eexists. eexists. split; [vm_compute; reflexivity|]. split; [vm_compute; reflexivity|]. eexists. split; vm_compute; reflexivity. }
  destruct R as (files & w & db' & R1 & R2 & y & F & E).
  assert (Ag : agrees (rows_of (shop (B"TEXT") (B"CASCADE")) shop_rows) (shop (B"TEXT") (B"CASCADE"))) by (apply rows_agree; distinct).
  assert (Q : exists x, sfind (rows_of (shop (B"TEXT") (B"CASCADE")) shop_rows) (B"orders") = Some x /\ st_rows x <> []).
  { eexists. split; [reflexivity|discriminate]. }
  destruct Q as (x & Fx & Nx). destruct (K _ _ _ _ _ _ _ Ag R1 R2 (B"orders") x Fx) as (z & Fz & Rz & _).
  { right. discriminate. }
  rewrite F in Fz. injection Fz as <-. rewrite E in Rz. inversion Rz. auto.
Qed.
(** The users are still there, the orders are not. *)
Theorem C92_refuted_cascade :
  after_run (an_env true) (shop (B"TEXT") (B"CASCADE")) (shop (B"VARCHAR(50)") (B"CASCADE")) true (rows_of (shop (B"TEXT") (B"CASCADE")) shop_rows)
  = Some [(B"orders", [B"id"; B"user_id"], []);
          (B"users", [B"id"; B"name"], [[Val (B"1"); Val (B"Ann")]; [Val (B"2"); Val (B"Bob")]])].
Proof. vm_compute. reflexivity. Qed.
(** With SET NULL, the orders are there, but nobody knows whose they are. *)
Theorem C92_refuted_set_null :
  after_run (an_env true) (shop (B"TEXT") (B"SET NULL")) (shop (B"VARCHAR(50)") (B"SET NULL")) true (rows_of (shop (B"TEXT") (B"SET NULL")) shop_rows)
  = Some [(B"orders", [B"id"; B"user_id"], [[Val (B"7"); Null]; [Val (B"8"); Null]]);
          (B"users", [B"id"; B"name"], [[Val (B"1"); Val (B"Ann")]; [Val (B"2"); Val (B"Bob")]])].
Proof. vm_compute. reflexivity. Qed.
(** A table that refers to itself loses rows, too: the copy refers to the table that is dropped. *)
Theorem C92_refuted_self :
  after_run (an_env true) (staff (B"TEXT")) (staff (B"VARCHAR(50)")) true (rows_of (staff (B"TEXT")) staff_rows)
  = Some [(B"staff", [B"id"; B"boss"; B"name"], [[Val (B"1"); Null; Val (B"Ann")]])].
Proof. vm_compute. reflexivity. Qed.
(** With other actions, the migration fails. *)
Theorem C92_refuted_fails :
  after_run (an_env true) (shop (B"TEXT") (B"NO ACTION")) (shop (B"VARCHAR(50)") (B"NO ACTION")) true (rows_of (shop (B"TEXT") (B"NO ACTION")) shop_rows) = None
  /\ the_stmts (shop (B"TEXT") (B"NO ACTION")) (shop (B"VARCHAR(50)") (B"NO ACTION")) true <> [].
Proof. split; [vm_compute; reflexivity|vm_compute; discriminate]. Qed.

(** ** What holds *)
(** Nothing is lost if no rows refer to what is dropped or rebuilt, or if foreign keys are not checked. *)
Theorem C92_partial e flt prefix src dest drop files warnings db db' :
  unique_tables (ct_schemas src) -> sqlite_names (ct_schemas dest) -> agrees db src ->
  results SQLite flt prefix src dest drop = Ok (files, warnings) ->
  calm e (forward files) db ->
  run_all e (forward files) db = Some db' -> data_stays drop dest db db'.
Proof. apply migration_keeps. Qed.
Theorem C92_unchecked_partial e flt prefix src dest drop files warnings db db' :
  unique_tables (ct_schemas src) -> sqlite_names (ct_schemas dest) -> agrees db src -> en_fkeys e = false ->
  results SQLite flt prefix src dest drop = Ok (files, warnings) ->
  run_all e (forward files) db = Some db' -> data_stays drop dest db db'.
Proof. intros U N A F R. apply (migration_keeps _ _ _ _ _ _ _ _ _ _ U N A R). left. exact F. Qed.

(** Without objects to be dropped, nothing is dropped or rebuilt, and nothing is ever lost. *)
Lemma sqlite_gentle : forall src dest p l, unique_tables (ct_schemas src) -> unique_tables (ct_schemas dest) ->
  new_sqlite_migration src dest false = Ok p -> sqlite_stmts p = Ok l -> forall n, ~ touched l n.
Proof.
  intros src dest p l Us Ud P L n T.
  assert (Q : sp_drop_tables p = [] /\ forall a, In a (sp_alters p) -> copied a = Ok false).
  { destruct (ct_schemas src) as [|s ss] eqn:Es, (ct_schemas dest) as [|d ds] eqn:Ed.
    1-3: unfold new_sqlite_migration in P; rewrite Es, Ed in P; injection P as <-; split; [reflexivity|intros a []].
    rewrite <- Es in Us. rewrite <- Ed in Ud. rewrite (sqlite_plan_ok src dest false s ss d ds Es Ed Us Ud) in P. injection P as <-. split; [reflexivity|].
    intros a Ha. apply in_flat_map in Ha. destruct Ha as (t & _ & Ha). destruct (find_table (named_schema s) (tb_name t)) as [u|]; [|contradiction].
    exact (copied_keep _ _ _ Ha). }
  destruct Q as (Q1 & Q2). unfold sqlite_stmts in L.
  destruct (flatr _ (sp_alters p)) as [alters| |] eqn:FA; try discriminate. cbn [bindr] in L. apply pair_alters in FA. destruct FA as (A1 & A2).
  injection L as L.
  assert (K : forall s, In s l -> (forall q, s <> QDropTable q) /\ (forall q m, s <> QRename q m)).
  { intros s Hs. rewrite <- L, Q1 in Hs. rewrite !in_app_iff in Hs. destruct Hs as [Hs|[[]|[Hs|[Hs|Hs]]]].
    - destruct (existsb snd alters); [destruct Hs as [<-|[]]|contradiction]. split; discriminate.
    - apply in_flat_map in Hs. destruct Hs as (t & _ & [<-|Hs]); [split; discriminate|]. apply in_map_iff in Hs. destruct Hs as (i & <- & _). split; discriminate.
    - apply in_flat_map in Hs. destruct Hs as ([a b] & Hab & Hs).
      assert (Ha : In a (sp_alters p)) by (rewrite <- A1; exact (in_map fst _ _ Hab)).
      pose proof (A2 a b Hab) as Z. rewrite (Q2 a Ha) in Z. injection Z as <-. unfold alter_stmts_sqlite in Hs. rewrite !in_app_iff in Hs.
      destruct Hs as [Hs|[Hs|[Hs|Hs]]]; apply in_map_iff in Hs; destruct Hs as (i & <- & _); split; discriminate.
    - destruct (existsb snd alters); [destruct Hs as [<-|[]]|contradiction]. split; discriminate. }
  destruct T as [(q & H & _)|(q & m & H & _)]; apply K in H; destruct H as (H1 & H2); [exact (H1 q eq_refl)|exact (H2 q m eq_refl)].
Qed.
Theorem C92_keep_partial e flt prefix src dest files warnings db db' :
  unique_tables (ct_schemas src) -> sqlite_names (ct_schemas dest) -> agrees db src ->
  results SQLite flt prefix src dest false = Ok (files, warnings) ->
  run_all e (forward files) db = Some db' -> data_stays false dest db db'.
Proof.
  intros U N A R. apply (migration_keeps _ _ _ _ _ _ _ _ _ _ U N A R). cbn [results] in R.
  destruct (new_sqlite_migration src dest false) as [p| |] eqn:P; try discriminate. cbn [bindr] in R.
  destruct (sqlite_stmts p) as [l| |] eqn:L; try discriminate. cbn [bindr] in R. injection R as R _.
  assert (E : forward files = l).
  { rewrite <- R. destruct l as [|s l]; [reflexivity|]. cbn. rewrite app_nil_r. reflexivity. }
  rewrite E. pose proof (sqlite_gentle src dest p l U (proj1 N) P L) as G. right. split; intros; apply G.
Qed.

(** *** Examples *)
(** The orders get another type: they are rebuilt, and nothing refers to them. *)
Definition orders (ty : bytes) : catalog :=
  sqlite_db [a_table (B"users") [a_column (B"users") (B"id") (B"INTEGER"); a_column (B"users") (B"name") (B"TEXT")] [a_pkey (B"users")];
             a_table (B"orders") [a_column (B"orders") (B"id") (B"INTEGER"); a_column (B"orders") (B"user_id") ty]
               [a_pkey (B"orders"); a_fkey (B"orders") (B"user_id") (B"users") (B"CASCADE")]].
Definition touchedb (l : list stmt) (n : bytes) : bool :=
  existsb (fun s => match s with QDropTable q | QRename q _ => beqb (snd q) n | _ => false end) l.
Definition calmb (l : list stmt) (db : sdb) : bool :=
  forallb (fun x => forallb (fun f => negb (touchedb l (fk_table f))) (st_fkeys x)) db
  && forallb (fun s => match s with QCreateTable _ t => forallb (fun f => negb (touchedb l (fk_table f))) (fkeys_of t) | _ => true end) l.
Lemma calm_check : forall e l db, calmb l db = true -> calm e l db.
Proof.
  intros e l db H. apply andb_true_iff in H. destruct H as (H1 & H2). rewrite forallb_forall in H1, H2.
  assert (T : forall n, negb (touchedb l n) = true -> ~ touched l n).
  { intros n B0 T. apply negb_true_iff in B0. assert (touchedb l n = true); [|congruence]. apply existsb_exists.
    destruct T as [(q & H & <-)|(q & m & H & <-)]; eexists; (split; [exact H|]); apply beqb_refl. }
  right. split.
  - intros x f Hx _ Hf. apply T. specialize (H1 x Hx). cbn in H1. rewrite forallb_forall in H1. exact (H1 f Hf).
  - intros q t f a cols Hc _ Hf. apply T. specialize (H2 _ Hc). cbn in H2. rewrite forallb_forall in H2. exact (H2 f Hf).
Qed.
Example C92_example : exists files w, results SQLite (fun _ => false) (B"1") (orders (B"INTEGER")) (orders (B"INT")) true = Ok (files, w)
  /\ calm (an_env true) (forward files) (rows_of (orders (B"INTEGER")) shop_rows) /\ List.length (forward files) = 6
  /\ agrees (rows_of (orders (B"INTEGER")) shop_rows) (orders (B"INTEGER"))
  /\ unique_tables (ct_schemas (orders (B"INTEGER"))) /\ sqlite_names (ct_schemas (orders (B"INT"))).
Proof.
  eexists. eexists. split; [vm_compute; reflexivity|]. split; [apply calm_check; vm_compute; reflexivity|].
  split; [vm_compute; reflexivity|]. split; [apply rows_agree; distinct|].
  split; [apply sqlite_unique; [distinct|intros t [<-|[<-|[]]]; reflexivity]|].
  split; [apply sqlite_unique; [distinct|intros t [<-|[<-|[]]]; reflexivity]|]. intros s t [<-|[]] [<-|[<-|[]]]; split; distinct.
Qed.
Example C92_example_rows :
  after_run (an_env true) (orders (B"INTEGER")) (orders (B"INT")) true (rows_of (orders (B"INTEGER")) shop_rows)
  = Some [(B"users", [B"id"; B"name"], [[Val (B"1"); Val (B"Ann")]; [Val (B"2"); Val (B"Bob")]]);
          (B"orders", [B"id"; B"user_id"], [[Val (B"7"); Val (B"1")]; [Val (B"8"); Val (B"2")]])].
Proof. vm_compute. reflexivity. Qed.
(** Without dropping, a column is added. *)
Definition wider : catalog :=
  sqlite_db [a_table (B"users") [a_column (B"users") (B"id") (B"INTEGER"); a_column (B"users") (B"email") (B"TEXT")] [a_pkey (B"users")]].
Example C92_example_keep :
  after_run (an_env true) (shop (B"TEXT") (B"CASCADE")) wider false (rows_of (shop (B"TEXT") (B"CASCADE")) shop_rows)
  = Some [(B"users", [B"id"; B"name"; B"email"], [[Val (B"1"); Val (B"Ann"); Null]; [Val (B"2"); Val (B"Bob"); Null]]);
          (B"orders", [B"id"; B"user_id"], [[Val (B"7"); Val (B"1")]; [Val (B"8"); Val (B"2")]])].
Proof. vm_compute. reflexivity. Qed.

Print Assumptions C92_refuted.
Print Assumptions C92_partial.
Print Assumptions C92_unchecked_partial.
Print Assumptions C92_keep_partial.
