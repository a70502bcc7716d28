(** Property C39: applying a generated migration. *)
From Verif Require Import GoStr GoStrFacts ModelCatalog ModelCache ModelDdl ModelDiff ModelDiffSql SpecDiff DiffWitness SpecApply ApplyRun ApplyAgain ApplyRead ApplyTotal ApplyWitness.

(** Between catalogs that meet the conditions of SpecApply.suitable, a migration is generated,
    none of its statements is refused, and the database then has the tables, columns, keys and
    indexes of the destination.  There is a catalog that describes this database, and whichever
    catalog is read from it, nothing is generated any more.  SQLite is in PropLite.v.
    Missing are SQL Server and the catalogs that are not suitable; see the refutations. *)
Theorem C39_partial : forall d flt prefix src dest x, d = MySQL \/ d = Postgres -> suitable d flt src dest -> describes (ct_schemas src) x ->
  let cur := ct_current src in
  let coll := ct_collation src in
  exists files ws, results d flt prefix src dest true = Ok (files, ws)
    /\ let y := after d cur coll (forward files) x in
       runs d cur coll (forward files) x /\ agrees d cur coll y (ct_schemas dest)
       /\ (exists l, orderly l /\ readable_types d l /\ describes l y)
       /\ forall flt' prefix' src', orderly (ct_schemas src') -> readable_types d (ct_schemas src') -> ct_collation src' = coll ->
            describes (ct_schemas src') y -> results d flt' prefix' src' dest true = Ok ([], []).
Proof.
  intros d flt prefix src dest x DD SU D cur coll. pose proof SU as ((Os & Od) & _ & _ & (Rs & Rd) & _).
  destruct (always_generated d flt prefix src dest DD Os Od Rs Rd) as (files & ws & H). exists files, ws. split; [exact H|]. intro y.
  destruct (migration_runs d flt src dest DD SU prefix files ws x H D) as (R & A). split; [exact R|]. split; [exact A|]. split; [exact (can_be_read d flt prefix src dest files ws x DD SU H D)|].
  intros flt' prefix' src' O' R' E D'. apply (agreement_is_quiet d flt' prefix' cur src' dest y DD O' Od R' Rd D'). rewrite E. exact A.
Qed.
Print Assumptions C39_partial.
(** The hypotheses hold for two catalogs with changes of all kinds. *)
Example C39_example : forall d, d = MySQL \/ d = Postgres ->
  suitable d no_float (before_db d) (after_db d) /\ (exists x, describes (ct_schemas (before_db d)) x)
  /\ stmts_of (results d no_float (B"m") (before_db d) (after_db d) true) <> [].
Proof.
  intros d D. split; [apply both_suitable; exact D|]. split.
  - exists (as_database (ct_schemas (before_db d))). apply as_database_described. apply before_orderly. exact D.
  - destruct D as [->| ->]; intro Z; vm_compute in Z; discriminate Z.
Qed.
(** The destination itself is suitable, and nothing happens. *)
Example C39_example_quiet : forall d, d = MySQL \/ d = Postgres -> results d no_float (B"m") (after_db d) (after_db d) true = Ok ([], []).
Proof. intros d [->| ->]; vm_compute; reflexivity. Qed.

(** ** Where the claim fails *)
(** A migration from [src] to [dest] is generated, but it is refused or has another result. *)
Definition goes_wrong (d : dialect) (src dest : catalog) : Prop :=
  exists x files ws, orderly (ct_schemas src) /\ orderly (ct_schemas dest) /\ describes (ct_schemas src) x
    /\ results d no_float (B"m") src dest true = Ok (files, ws)
    /\ ~ (runs d (ct_current src) (ct_collation src) (forward files) x
          /\ agrees d (ct_current src) (ct_collation src) (after d (ct_current src) (ct_collation src) (forward files) x) (ct_schemas dest)).
Lemma wrong : forall d src dest l, orderly (ct_schemas src) -> orderly (ct_schemas dest) ->
  results d no_float (B"m") src dest true = Ok l ->
  let x := as_database (ct_schemas src) in
  ~ (runs d (ct_current src) (ct_collation src) (forward (fst l)) x
     /\ agrees d (ct_current src) (ct_collation src) (after d (ct_current src) (ct_collation src) (forward (fst l)) x) (ct_schemas dest)) ->
  goes_wrong d src dest.
Proof. intros d src dest [files ws] Os Od H x N. exists x, files, ws. split; [exact Os|]. split; [exact Od|]. split; [apply as_database_described; exact Os|]. split; [exact H|exact N]. Qed.
Ltac small := split; [split; [split; [apply nodupb_ok; reflexivity|]|]|split];
  [intros s H; each H; (split; [apply nodupb_ok; reflexivity|]; intros t H; each H; reflexivity)
  |intros s t H H'; each H; each H'; repeat split; apply nodupb_ok; reflexivity
  |intros s H; each H; (split; [discriminate|reflexivity])
  |intros q t L; at_places L; (split; [reflexivity|]; split; [|split]; intros c Hc; each Hc; repeat split; try reflexivity; discriminate)].
(** What the database has at a place, if it agrees with a catalog. *)
Lemma agreed : forall d cur coll x l q t, agrees d cur coll x l -> located l q t -> exists dt, db_tables x q = Some dt /\ agrees_table d cur coll dt t.
Proof. intros d cur coll x l q t (_ & A2 & A3) L. destruct (proj2 (A2 q) (ex_intro _ t L)) as (dt & E). exists dt. split; [exact E|exact (A3 q t dt L E)]. Qed.
Ltac disagree A := let dt := fresh "dt" in let E := fresh "E" in let T := fresh "T" in
  edestruct agreed as (dt & E & T); [exact A|apply places_are; left; reflexivity|]; vm_compute in E; injection E as <-.

Definition st_col (n ty : bytes) (notnull : bool) (def : bytes) : column := col (B"s") (B"t") n ty notnull def.
Definition id_col (kind : bytes) (notnull : bool) : column :=
  Column (B"s") (B"t") (B"x") (B"INT") [] [] [] [] false notnull false false false kind [] false false [] false [] false.
Definition one (d : dialect) (cols : list column) (cons : list constraint) (ixs : list index) : catalog :=
  one_schema d (B"s") [a_table (B"s") (B"t") cols cons ixs].
Definition int_x : column := st_col (B"x") (B"INT") false [].
Definition int_y : column := st_col (B"y") (B"INT") false [].

(** A superfluous column stays. *)
Theorem C39_column_refuted : forall d, d <> Other -> exists src dest, goes_wrong d src dest.
Proof.
  intros d N. exists (one d [int_x; int_y] [] []), (one d [int_x] [] []). apply (wrong _ _ _ ([], [])).
  - destruct d; small.
  - destruct d; small.
  - destruct d; try contradiction; vm_compute; reflexivity.
  - intros (_ & A). disagree A. destruct T as (T & _). specialize (T (B"y")). vm_compute in T. destruct T as (_ & T). discriminate (T eq_refl).
Qed.
Print Assumptions C39_column_refuted.
(** Postgres: a default that is not a literal stays, and so does the empty file. *)
Theorem C39_default_refuted : exists src dest, goes_wrong Postgres src dest
  /\ exists f ws, results Postgres no_float (B"m") src dest true = Ok ([f], ws) /\ fl_stmts f = [].
Proof.
  exists (one Postgres [st_col (B"x") (B"TEXT") false (B"lower('a')")] [] []), (one Postgres [st_col (B"x") (B"TEXT") false (B"lower('b')")] [] []). split.
  - apply (wrong _ _ _ ([File (B"m_01_alter_t.tx.sql") false []], [])); [small|small|vm_compute; reflexivity|].
    intros (_ & A). disagree A. destruct T as (_ & T & _). specialize (T (B"x") _ _ eq_refl eq_refl). destruct T as (_ & T & _). vm_compute in T. discriminate T.
  - exists (File (B"m_01_alter_t.tx.sql") false []), []. split; [vm_compute; reflexivity|reflexivity].
Qed.
Print Assumptions C39_default_refuted.
(** Postgres: identity is added to a column before it is NOT NULL. *)
Theorem C39_identity_refuted : exists src dest, goes_wrong Postgres src dest.
Proof.
  exists (one Postgres [id_col [] false] [] []), (one Postgres [id_col (B"ALWAYS") true] [] []).
  apply (wrong _ _ _ (got (results Postgres no_float (B"m") (one Postgres [id_col [] false] [] []) (one Postgres [id_col (B"ALWAYS") true] [] []) true))); [small|small|vm_compute; reflexivity|].
  intros (R & _). vm_compute in R. destruct R as (_ & (dt & c & E & Ec & N & _) & _). injection E as <-. vm_compute in Ec. injection Ec as <-. discriminate N.
Qed.
Print Assumptions C39_identity_refuted.
(** Postgres: identity is dropped after NOT NULL. *)
Theorem C39_drop_identity_refuted : exists src dest, goes_wrong Postgres src dest.
Proof.
  exists (one Postgres [id_col (B"ALWAYS") true] [] []), (one Postgres [id_col [] false] [] []).
  apply (wrong _ _ _ (got (results Postgres no_float (B"m") (one Postgres [id_col (B"ALWAYS") true] [] []) (one Postgres [id_col [] false] [] []) true))); [small|small|vm_compute; reflexivity|].
  intros (R & _). vm_compute in R. destruct R as ((dt & c & E & Ec & N & _) & _). injection E as <-. vm_compute in Ec. injection Ec as <-. discriminate N.
Qed.
Print Assumptions C39_drop_identity_refuted.
(** Postgres: a unique constraint that is added from an index is not deferrable. *)
Definition deferred_key : constraint := Constraint (B"s") (B"t") (B"t_x_key") UNIQUE [B"x"] [] [] [] [] [] [] [] [] [] [] true true false false false.
Theorem C39_deferrable_refuted : exists src dest, goes_wrong Postgres src dest.
Proof.
  exists (one Postgres [int_x] [] []), (one Postgres [int_x] [deferred_key] []).
  apply (wrong _ _ _ (got (results Postgres no_float (B"m") (one Postgres [int_x] [] []) (one Postgres [int_x] [deferred_key] []) true))); [small|small|vm_compute; reflexivity|].
  intros (_ & A). disagree A. destruct T as (_ & _ & _ & _ & T & _). specialize (T eq_refl (B"t_x_key") _ _ eq_refl eq_refl). destruct T as (T & _). vm_compute in T. discriminate T.
Qed.
Print Assumptions C39_deferrable_refuted.
(** A key to which a foreign key refers is renamed. *)
Definition renamed (d : dialect) (n : bytes) : catalog :=
  one_schema d (B"s") [a_table (B"s") (B"t") [int_x; int_y] [a_key (B"s") (B"t") n UNIQUE [B"x"]; a_fkey (B"s") (B"t") (B"f") [B"y"] (B"s") (B"t") [B"x"]] []].
Theorem C39_renamed_refuted : forall d, d = Postgres \/ d = SQLServer -> exists src dest, goes_wrong d src dest
  /\ exists s l, stmts_of (results d no_float (B"m") src dest true) = s :: l /\ exists x, describes (ct_schemas src) x /\ ~ allowed d (ct_current src) x s.
Proof.
  assert (NR : forall d (x := as_database (ct_schemas (renamed d (B"k1")))) q c, allowed d (B"s") x (QDropConstraint q c) -> place (B"s") q = (B"s", B"t") -> con_name c = B"k1" -> False).
  { intros d x q c (dt & E & k & Ek & N) Eq En. rewrite Eq in E, N. rewrite En in Ek. vm_compute in E. injection E as <-. vm_compute in Ek. injection Ek as <-.
    specialize (N (or_intror eq_refl) (a_fkey (B"s") (B"t") (B"f") [B"y"] (B"s") (B"t") [B"x"])). apply N.
    - split; [reflexivity|]. eexists (B"s", B"t"), _, (B"f"). split; [vm_compute; reflexivity|]. vm_compute. reflexivity.
    - reflexivity.
    - exact (same_set_refl [B"x"]). }
  intros d D. exists (renamed d (B"k1")), (renamed d (B"k2")).
  assert (X : exists q c l, stmts_of (results d no_float (B"m") (renamed d (B"k1")) (renamed d (B"k2")) true) = QDropConstraint q c :: l /\ place (B"s") q = (B"s", B"t") /\ con_name c = B"k1"
     /\ results d no_float (B"m") (renamed d (B"k1")) (renamed d (B"k2")) true = Ok (got (results d no_float (B"m") (renamed d (B"k1")) (renamed d (B"k2")) true))).
  { destruct D as [->| ->]; eexists _, _, _; (split; [vm_compute; reflexivity|]; split; [reflexivity|]; split; [reflexivity|]); vm_compute; reflexivity. }
  destruct X as (q & c & l & X1 & X2 & X3 & X4). assert (O1 : orderly (ct_schemas (renamed d (B"k1")))) by (clear; small). split.
  - eapply wrong; [exact O1|clear; small|exact X4|]. intros (R & _).
    assert (Z : forward (fst (got (results d no_float (B"m") (renamed d (B"k1")) (renamed d (B"k2")) true))) = QDropConstraint q c :: l) by (rewrite <- X1, X4; cbn [stmts_of got]; destruct (results _ _ _ _ _ _) as [[]| |]; reflexivity).
    rewrite Z in R. destruct R as (R & _). exact (NR d q c R X2 X3).
  - exists (QDropConstraint q c), l. split; [exact X1|]. eexists. split; [apply as_database_described; exact O1|]. intro R. exact (NR d q c R X2 X3).
Qed.
Print Assumptions C39_renamed_refuted.
(** SQL Server: a column stays NULL. *)
Theorem C39_notnull_refuted : exists src dest, goes_wrong SQLServer src dest.
Proof.
  exists (one SQLServer [int_x] [] []), (one SQLServer [st_col (B"x") (B"INT") true []] [] []).
  apply (wrong _ _ _ ([File (B"m_01_alter_t.tx.sql") false []], [])); [small|small|vm_compute; reflexivity|].
  intros (_ & A). disagree A. destruct T as (_ & T & _). specialize (T (B"x") _ _ eq_refl eq_refl). destruct T as (_ & _ & T & _). vm_compute in T. discriminate T.
Qed.
Print Assumptions C39_notnull_refuted.
(** SQL Server: an index with two columns whose types change is dropped twice. *)
Definition two_columns (ty : bytes) : catalog := one SQLServer [st_col (B"x") ty false []; st_col (B"y") ty false []] [] [an_index (B"s") (B"t") (B"i") [B"x"; B"y"]].
Theorem C39_index_refuted : exists src dest, goes_wrong SQLServer src dest.
Proof.
  exists (two_columns (B"INT")), (two_columns (B"BIGINT")).
  apply (wrong _ _ _ (got (results SQLServer no_float (B"m") (two_columns (B"INT")) (two_columns (B"BIGINT")) true))); [small|small|vm_compute; reflexivity|].
  intros (R & _). vm_compute in R. destruct R as (_ & (dt & E & N) & _). injection E as <-. apply N. vm_compute. reflexivity.
Qed.
Print Assumptions C39_index_refuted.
