(** C93: migrations of SQLite databases keep the triggers. *)
From Coq Require Import Permutation.
From Verif Require Import GoStr GoStrFacts ModelCatalog ModelDdl ModelDiff ModelDiffSql SpecDiff SpecRebuild RebuildFacts PropRebuild ModelTriggers SpecTriggers TriggerFacts.

(** The full statement: if the triggers of the database are asked for, generate succeeds, and its statements are accepted,
    then all triggers that are still asked for are there. *)
Definition keeps_triggers (src dest : catalog) (drop : bool) : Prop :=
  forall e rows failed dt l db db', tdb_ok e db -> tagrees db src -> answers db rows failed ->
    generate_with_triggers rows failed dt src dest drop = Ok l -> trun e l db = Some db' -> triggers_stay drop dest dt db db'.

(** ** It does not hold *)
Definition log_trigger (body : bytes) : dtrigger := DTrigger (B"log_users") (B"users") (B"CREATE TRIGGER log_users AFTER INSERT ON users BEGIN " ++ body ++ B" END").
Definition reads_log (s : bytes) : option (bytes * bytes) :=
  if has_prefix s (B"CREATE TRIGGER log_users AFTER INSERT ON users") then Some (B"log_users", B"users") else None.
Definition a_tenv : tenv := TEnv reads_log (fun _ _ => false) (fun _ _ s => s).
Definition shop_triggers (body : bytes) : tdb := TDb [B"users"; B"orders"] [log_trigger body].
Definition nothing : bytes -> list trigger := fun _ => [].
Definition tstmts (rows : list (bytes * bytes * bytes)) (failed : bool) : list tstmt :=
  match generate_with_triggers rows failed nothing (shop (B"TEXT") []) (shop (B"VARCHAR(50)") []) true with Ok l => l | _ => [] end.
Lemma shop_ok : forall body, tdb_ok a_tenv (shop_triggers body) /\ tagrees (shop_triggers body) (shop (B"TEXT") []).
Proof.
  intro body. split; [|intros t [<-|[<-|[]]]; cbn; auto]. split; [distinct|]. split; [distinct|].
  intros g [<-|[]]. split; [left; reflexivity|]. cbn [te_parse a_tenv reads_log log_trigger dt_sql dt_name dt_table]. unfold reads_log.
  rewrite <- !app_assoc. reflexivity.
Qed.

(** The connection breaks while the triggers are read: generate succeeds without them, and the migration drops them. *)
Theorem C93_refuted : exists src dest, sqlite_names (ct_schemas src) /\ sqlite_names (ct_schemas dest) /\ ~ keeps_triggers src dest true.
Proof.
  exists (shop (B"TEXT") []), (shop (B"VARCHAR(50)") []).
  assert (U : forall ty act, sqlite_names (ct_schemas (shop ty act))).
  { intros ty act. split; [apply sqlite_unique; [distinct|intros t [<-|[<-|[]]]; reflexivity]|].
    intros s t [<-|[]] [<-|[<-|[]]]; split; distinct. }
  split; [apply U|]. split; [apply U|]. intro K. destruct (shop_ok (B"SELECT 1;")) as (O & A).
  assert (R : exists l db', generate_with_triggers [] true nothing (shop (B"TEXT") []) (shop (B"VARCHAR(50)") []) true = Ok l
      /\ trun a_tenv l (shop_triggers (B"SELECT 1;")) = Some db' /\ td_triggers db' = []).
  { eexists. eexists. split; [vm_compute; reflexivity|]. split; vm_compute; reflexivity. }
  destruct R as (l & db' & R1 & R2 & E).
  assert (An : answers (shop_triggers (B"SELECT 1;")) [] true) by (eexists; split; [apply Permutation_refl|eexists; reflexivity]).
  pose proof (K _ _ _ _ _ _ _ O A An R1 R2 _ (or_introl eq_refl)) as Z. rewrite E in Z. apply Z. split; [right; discriminate|left; reflexivity].
Qed.
(** Windows line ends in a trigger, also in its string literals, are changed. *)
Definition crlf_body : bytes := B"INSERT INTO log VALUES ('a" ++ [CR; LF] ++ B"b');".
Definition lf_body : bytes := B"INSERT INTO log VALUES ('a" ++ [LF] ++ B"b');".
Theorem C93_refuted_lines : exists rows, answers (shop_triggers crlf_body) rows false
  /\ exists tables, trun a_tenv (tstmts rows false) (shop_triggers crlf_body) = Some (TDb tables [log_trigger lf_body]).
Proof.
  eexists. split; [eexists; split; [apply Permutation_refl|reflexivity]|]. eexists. vm_compute. reflexivity.
Qed.

(** ** What holds *)
(** If the triggers could be read and have no Windows line ends, all of them are kept; if the destination has triggers of
    a table, those that both have are kept. *)
Theorem C93_partial e rows dt src dest drop l db db' :
  unique_tables (ct_schemas src) -> sqlite_names (ct_schemas dest) -> tdb_ok e db -> answers db rows false ->
  (forall g, In g (td_triggers db) -> dt (dt_table g) = [] -> no_crlf (dt_sql g)) ->
  generate_with_triggers rows false dt src dest drop = Ok l -> trun e l db = Some db' -> triggers_stay drop dest dt db db'.
Proof. apply migration_triggers. Qed.
(** Without objects to be dropped, all triggers of all tables are kept, whatever was read. *)
Theorem C93_keep_partial e rows failed dt src dest l db db' :
  unique_tables (ct_schemas src) -> sqlite_names (ct_schemas dest) -> tdb_ok e db ->
  generate_with_triggers rows failed dt src dest false = Ok l -> trun e l db = Some db' -> forall g, In g (td_triggers db) -> In g (td_triggers db').
Proof.
  intros Us (Ud & _) (_ & _ & O) R H g Hg. unfold generate_with_triggers in R. cbn [get_triggers bindr] in R.
  destruct (new_sqlite_migration src dest false) as [p| |] eqn:P; try discriminate. cbn [bindr] in R.
  destruct (O g Hg) as (T & Pg). refine (proj1 (run_leaves e l db db' g H _ (conj Hg T))).
  assert (L : exists q, sqlite_stmts p = Ok q).
  { unfold sqlite_stmts. unfold sqlite_tstmts in R. destruct (flatr _ (sp_alters p)); try discriminate. eexists. reflexivity. }
  destruct L as (q & L). pose proof (sqlite_gentle src dest p q Us Ud P L) as G.
  assert (E : forall s, In s l -> (exists x, s = TTrigger x) \/ exists x, s = TStmt x /\ In x q).
  { intros s Hs. unfold sqlite_tstmts in R. unfold sqlite_stmts in L. destruct (flatr _ (sp_alters p)) as [alters| |]; try discriminate. cbn [bindr] in R, L.
    injection R as R. injection L as L. rewrite <- R in Hs. rewrite <- L. rewrite !in_app_iff in Hs.
    destruct Hs as [Hs|[Hs|[Hs|[Hs|Hs]]]].
    - right. apply in_map_iff in Hs. destruct Hs as (x & <- & Hx). exists x. split; [reflexivity|]. rewrite !in_app_iff. tauto.
    - right. apply in_map_iff in Hs. destruct Hs as (x & <- & Hx). exists x. split; [reflexivity|]. rewrite !in_app_iff. tauto.
    - right. apply in_map_iff in Hs. destruct Hs as (x & <- & Hx). exists x. split; [reflexivity|]. rewrite !in_app_iff. tauto.
    - apply in_flat_map in Hs. destruct Hs as ([a b] & Hab & Hs).
      assert (I : forall x, In x (alter_stmts_sqlite a b) -> In x (flat_map (fun '(a, b) => alter_stmts_sqlite a b) alters)).
      { intros x Hx. apply in_flat_map. exists (a, b). split; [exact Hab|exact Hx]. }
      destruct b.
      + apply in_app_iff in Hs. destruct Hs as [Hs|Hs].
        * right. apply in_map_iff in Hs. destruct Hs as (x & <- & Hx). exists x. split; [reflexivity|]. specialize (I x Hx). rewrite !in_app_iff. tauto.
        * left. apply in_map_iff in Hs. destruct Hs as (x & <- & _). eexists. reflexivity.
      + right. apply in_map_iff in Hs. destruct Hs as (x & <- & Hx). exists x. split; [reflexivity|]. specialize (I x Hx). rewrite !in_app_iff. tauto.
    - right. apply in_map_iff in Hs. destruct Hs as (x & <- & Hx). exists x. split; [reflexivity|]. rewrite !in_app_iff. tauto. }
  intros s Hs. destruct (E s Hs) as [(x & ->)|(x & -> & Hx)]; [exact I|]. destruct x; try exact I; cbn; intro Z; apply (G (dt_table g)); rewrite <- Z.
  - left. eexists. split; [exact Hx|reflexivity].
  - right. eexists. eexists. split; [exact Hx|reflexivity].
Qed.
(** The statements are those of the model without triggers. *)
Theorem C93_same_statements st dt p l : sqlite_tstmts st dt p = Ok l ->
  sqlite_stmts p = Ok (flat_map (fun s => match s with TStmt x => [x] | TTrigger _ => [] end) l).
Proof.
  intro H. unfold sqlite_tstmts in H. unfold sqlite_stmts. destruct (flatr _ (sp_alters p)) as [alters| |]; try discriminate. cbn [bindr] in *.
  injection H as <-. f_equal.
  assert (M : forall q, flat_map (fun s => match s with TStmt x => [x] | TTrigger _ => [] end) (map TStmt q) = q).
  { intro q. induction q as [|x q IH]; cbn; [reflexivity|]. rewrite IH. reflexivity. }
  rewrite !flat_map_app, !M. do 3 f_equal. f_equal. induction alters as [|[a b] alters IH]; [reflexivity|].
  cbn [flat_map]. rewrite flat_map_app, <- IH. f_equal. destruct b; [|rewrite M; reflexivity].
  unfold copy_tstmts. rewrite flat_map_app, M. cbn [alter_stmts_sqlite].
  assert (Z : forall (k : list trigger), flat_map (fun s => match s with TStmt x => [x] | TTrigger _ => [] end) (map (fun t => TTrigger (tg_sql t)) k) = []).
  { intro k. induction k as [|x k IHk]; [reflexivity|exact IHk]. }
  rewrite Z, app_nil_r. reflexivity.
Qed.

(** *** Examples *)
Example C93_example : exists rows tables, answers (shop_triggers (B"SELECT 1;")) rows false /\ no_crlf (dt_sql (log_trigger (B"SELECT 1;")))
  /\ trun a_tenv (tstmts rows false) (shop_triggers (B"SELECT 1;")) = Some (TDb tables [log_trigger (B"SELECT 1;")])
  /\ List.length (tstmts rows false) = 7.
Proof.
  eexists. eexists. split; [eexists; split; [apply Permutation_refl|reflexivity]|]. split; [|split; vm_compute; reflexivity].
  intros a b E. assert (In CR (dt_sql (log_trigger (B"SELECT 1;")))) as H by (rewrite E; apply in_app_iff; right; left; reflexivity).
  vm_compute in H. repeat (destruct H as [H|H]; [discriminate H|]). exact H.
Qed.
Print Assumptions C93_refuted.
Print Assumptions C93_partial.
Print Assumptions C93_keep_partial.
