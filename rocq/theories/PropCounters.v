(** C117: a migration of a SQLite database does not make AUTOINCREMENT give numbers again. *)
From Coq Require Import Lia ZifyBool ZifyNat ZifyN.
From Verif Require Import GoStr GoStrFacts ModelCatalog ModelDdl ModelDiff ModelDiffSql SpecDiff SpecRebuild RebuildFacts DiffFacts DiffSqlite PropRebuild SpecCounters.

(** The claim: if a table has the same AUTOINCREMENT column before and after the migration, then the next number is larger
    than all that were given before. *)
Definition numbers_stay (n c : bytes) (k k' : counters) : Prop :=
  co_column k n = Some c -> co_column k' n = Some c -> (next_id k n <= next_id k' n)%N.
Definition keeps_numbers (src dest : catalog) (drop : bool) : Prop :=
  forall e flt prefix files warnings db db' k k' n c, agrees db src -> results SQLite flt prefix src dest drop = Ok (files, warnings) ->
    (forall m, id_of (en_default e m c) = 0%N) -> counted_well c db k ->
    calm e (forward files) db -> run_counted e (forward files) db k = Some (db', k') ->
    column_stays drop dest n c -> numbers_stay n c k k'.

Lemma run_counted_run : forall e l db k db' k', run_counted e l db k = Some (db', k') -> run_all e l db = Some db'.
Proof.
  induction l as [|s l IH]; intros db k db' k' H; cbn in *; [congruence|]. destruct (en_refuses e db s); [discriminate|].
  destruct (effect e db s); [|discriminate]. exact (IH _ _ _ _ H).
Qed.

(** ** The counters are never behind the rows *)
Lemma largest_ge : forall l n, In n l -> (n <= largest l)%N.
Proof. induction l as [|m l IH]; intros n []; cbn; [subst; lia|]. specialize (IH n H). lia. Qed.
Lemma sfind_none_name : forall db n x, sfind db n = None -> In x db -> st_name x <> n.
Proof. intros db n x F I E. apply (sfind_none _ _ F). rewrite <- E. apply in_map, I. Qed.

(** Rows that are left when rows are deleted: their values are as before, NULL or the default. *)
Definition faded (e : env) (db db' : sdb) : Prop :=
  forall y r', In y db' -> In r' (st_rows y) -> exists x r, In x db /\ st_name x = st_name y /\ In r (st_rows x) /\
    forall c, r' c = r c \/ r' c = Null \/ exists m, r' c = en_default e m c.
Lemma faded_refl : forall e db, faded e db db.
Proof. intros e db y r I J. exists y, r. auto 6. Qed.
Lemma faded_trans : forall e a b d, faded e a b -> faded e b d -> faded e a d.
Proof.
  intros e a b d H K y r I J. destruct (K y r I J) as (x & q & I1 & N1 & J1 & V1). destruct (H x q I1 J1) as (z & p & I2 & N2 & J2 & V2).
  exists z, p. split; [exact I2|]. split; [congruence|]. split; [exact J2|]. intro c. destruct (V1 c) as [->|V]; [exact (V2 c)|right; exact V].
Qed.
Lemma keep_rows_in : forall f l r', In r' (fst (keep_rows f l)) -> exists r, In r l /\ f r = Some r'.
Proof.
  induction l as [|r l IH]; intros r' H; [destruct H|]. cbn in H. destruct (keep_rows f l) as (kept & lost). cbn in IH. destruct (f r) as [q|] eqn:E; cbn in H.
  - destruct H as [<-|H]; [exists r; split; [left; reflexivity|exact E]|]. destruct (IH r' H) as (r0 & I & F). exists r0. split; [right; exact I|exact F].
  - destruct (IH r' H) as (r0 & I & F). exists r0. split; [right; exact I|exact F].
Qed.
Lemma set_columns_value : forall cols v r c, set_columns cols v r c = r c \/ set_columns cols v r c = v c.
Proof. intros cols v r c. unfold set_columns. destruct cols; [auto|]. destruct (existsb _ _); auto. Qed.
Lemma child_faded : forall e g db, faded e db (map fst (map (child e g) db)).
Proof.
  intros e ((n & key) & p) db y r' I J. rewrite map_map in I. apply in_map_iff in I. destruct I as (x & <- & I).
  unfold child in J |- *. pose proof (keep_rows_in (fun r => after e x (hits n key p x r) r) (st_rows x)) as K.
  destruct (keep_rows _ _) as (kept & lost). cbn in J, K |- *. destruct (K r' J) as (r & Ir & A). exists x, r. split; [exact I|]. split; [reflexivity|]. split; [exact Ir|].
  intro c. unfold after in A. destruct (existsb _ _); [discriminate|]. injection A as <-.
  match goal with |- set_columns ?a ?b ?d c = _ \/ _ => destruct (set_columns_value a b d c) as [->| ->] end; [|auto].
  match goal with |- set_columns ?a ?b ?d c = _ \/ _ => destruct (set_columns_value a b d c) as [->| ->] end; eauto.
Qed.
Lemma cascade_faded : forall e fuel todo done db done' db', cascade fuel e todo done db = Some (done', db') -> faded e db db'.
Proof.
  induction fuel as [|fuel IH]; intros todo done db done' db' H; (destruct todo as [|g todo]; cbn [cascade] in H; [injection H as _ <-; apply faded_refl|]); [discriminate|].
  destruct (existsb _ db); [discriminate|]. apply IH in H. eapply faded_trans; [apply child_faded|exact H].
Qed.
Lemma drop_faded : forall e db x db', drop_table e db x = Some db' -> faded e (sremove db (st_name x)) db'.
Proof.
  intros e db x db' H. unfold drop_table in H. destruct (en_fkeys e); [|injection H as <-; apply faded_refl].
  destruct (cascade _ _ _ _ _) as [[done d]|] eqn:C; [|discriminate]. destruct (existsb _ done); [discriminate|]. injection H as <-. exact (cascade_faded _ _ _ _ _ _ _ C).
Qed.

Section Well.
Variables (e : env) (c : bytes).
Hypothesis no_default : forall m, id_of (en_default e m c) = 0%N.

Lemma step_well : forall db k s db', effect e db s = Some db' -> counted_well c db k -> counted_well c db' (counted e db k s).
Proof using no_default.
  intros db k s db' E W. destruct s; cbn [effect counted] in *; try discriminate E; try (injection E as <-; exact W).
  - (* DROP TABLE *)
    destruct (sfind db (snd t)) as [x0|] eqn:F; [|discriminate]. apply sfind_in in F. destruct F as (_ & F). pose proof (drop_faded _ _ _ _ E) as D. rewrite F in D.
    intros y r' I J C. cbn [set_counter co_column co_last] in *. destruct (beqb (st_name y) (snd t)) eqn:B; [discriminate|].
    destruct (D y r' I J) as (x & r & Ix & Nx & Ir & V). unfold sremove in Ix. apply filter_In in Ix. destruct Ix as (Ix & _).
    destruct (V c) as [->|[->|(m & ->)]]; [|cbn; lia|rewrite no_default; lia]. rewrite <- Nx in *. exact (W x r Ix Ir C).
  - (* CREATE TABLE *)
    destruct (sfind db (snd t)) eqn:F; [discriminate|]. injection E as <-. intros x r I J C. cbn [set_counter co_column co_last] in *.
    apply in_app_iff in I. destruct I as [I|[<-|[]]]; [|destruct J]. pose proof (sfind_none_name _ _ _ F I) as N.
    destruct (beqb_spec (st_name x) (snd t)); [contradiction|]. exact (W x r I J C).
  - (* INSERT INTO ... SELECT *)
    destruct (sfind db (snd src)) as [x0|] eqn:F; [|discriminate]. destruct (sfind db (snd dest)); [|discriminate]. injection E as <-.
    intros y r I J C. unfold supdate in I. apply in_map_iff in I. destruct I as (x & <- & I).
    destruct (co_column k (snd dest)) as [c'|] eqn:Cd.
    + cbn [set_counter co_column co_last] in *. destruct (beqb_spec (st_name x) (snd dest)) as [En|En].
      * cbn [with_rows st_name st_rows] in *. rewrite En, beqb_refl in *. injection C as ->. apply in_app_iff in J. destruct J as [J|J].
        -- rewrite <- En in Cd. specialize (W x r I J Cd). rewrite En in W. lia.
        -- apply in_map_iff in J. destruct J as (r0 & <- & J).
           pose proof (largest_ge (map (fun r => id_of (copied_row e (snd dest) columns r c)) (st_rows x0)) _ (in_map (fun r => id_of (copied_row e (snd dest) columns r c)) _ _ J)). cbn beta in *. lia.
      * destruct (beqb_spec (st_name x) (snd dest)); [contradiction|]. exact (W x r I J C).
    + destruct (beqb_spec (st_name x) (snd dest)) as [En|En]; [cbn [with_rows st_name] in C; congruence|]. exact (W x r I J C).
  - (* RENAME *)
    destruct (sfind db (snd t)) eqn:F; [|discriminate]. destruct (sfind db n) eqn:Fn; [discriminate|]. injection E as <-.
    intros y r I J C. apply in_map_iff in I. destruct I as (x & <- & I). cbn [renamed set_counter co_column co_last st_name st_rows] in *.
    pose proof (sfind_none_name _ _ _ Fn I) as N.
    destruct (beqb_spec (st_name x) (snd t)) as [En|En].
    + rewrite beqb_refl in *. rewrite <- En in *. exact (W x r I J C).
    + destruct (beqb_spec (st_name x) n); [contradiction|]. destruct (beqb_spec (st_name x) (snd t)); [contradiction|]. exact (W x r I J C).
  - (* DROP COLUMN *)
    destruct (sfind db (snd t)); [|discriminate]. injection E as <-. intros y r I J C. unfold supdate in I. apply in_map_iff in I. destruct I as (x & <- & I).
    destruct (beqb _ _); cbn [st_name st_rows] in *; exact (W x r I J C).
  - (* ADD COLUMN *)
    destruct (sfind db (snd t)); [|discriminate]. destruct (existsb _ _); [discriminate|]. injection E as <-. intros y r I J C. unfold supdate in I. apply in_map_iff in I. destruct I as (x & <- & I).
    destruct (beqb _ _); cbn [st_name st_rows] in *; [|exact (W x r I J C)]. apply in_map_iff in J. destruct J as (r0 & <- & J).
    destruct (set_columns_value [col_name c0] (en_default e (snd t)) r0 c) as [->| ->]; [exact (W x r0 I J C)|rewrite no_default; lia].
Qed.
Lemma run_well : forall l db k db' k', run_counted e l db k = Some (db', k') -> counted_well c db k -> counted_well c db' k'.
Proof using no_default.
  induction l as [|s l IH]; intros db k db' k' H W; cbn [run_counted] in H; [injection H as <- <-; exact W|].
  destruct (en_refuses e db s); [discriminate|]. destruct (effect e db s) as [m|] eqn:E; [|discriminate]. exact (IH _ _ _ _ H (step_well _ _ _ _ E W)).
Qed.
End Well.

(** ** Statements that drop and rename nothing *)
Lemma step_gentle : forall e db k s db' n, effect e db s = Some db' -> sfind db n <> None ->
  (forall q, s <> QDropTable q) -> (forall q m, s <> QRename q m) ->
  (co_last k n <= co_last (counted e db k s) n)%N /\ sfind db' n <> None.
Proof.
  intros e db k s db' n E F D R. destruct s; cbn [effect counted] in *; try discriminate E; try (injection E as <-; split; [lia|exact F]).
  - destruct (D t eq_refl).
  - destruct (sfind db (snd t)) eqn:Ft; [discriminate|]. injection E as <-. split.
    + cbn. destruct (beqb_spec n (snd t)) as [->|]; [congruence|lia].
    + rewrite sfind_app. destruct (sfind db n); [discriminate|contradiction].
  - destruct (sfind db (snd src)) as [x0|]; [|discriminate]. destruct (sfind db (snd dest)); [|discriminate]. injection E as <-. split.
    + destruct (co_column k (snd dest)); [|lia]. cbn. destruct (beqb_spec n (snd dest)) as [->|]; lia.
    + rewrite sfind_update by reflexivity. destruct (sfind db n); [|contradiction]. destruct (beqb _ _); discriminate.
  - destruct (R t n0 eq_refl).
  - destruct (sfind db (snd t)); [|discriminate]. injection E as <-. split; [lia|]. rewrite sfind_update by reflexivity. destruct (sfind db n); [|contradiction]. destruct (beqb _ _); discriminate.
  - destruct (sfind db (snd t)); [|discriminate]. destruct (existsb _ _); [discriminate|]. injection E as <-. split; [lia|]. rewrite sfind_update by reflexivity. destruct (sfind db n); [|contradiction]. destruct (beqb _ _); discriminate.
Qed.
Lemma run_gentle : forall e l db k db' k' n, (forall m, ~ touched l m) -> run_counted e l db k = Some (db', k') -> sfind db n <> None ->
  (co_last k n <= co_last k' n)%N.
Proof.
  induction l as [|s l IH]; intros db k db' k' n T H F; cbn [run_counted] in H; [injection H as _ <-; lia|].
  destruct (en_refuses e db s); [discriminate|]. destruct (effect e db s) as [m|] eqn:E; [|discriminate].
  destruct (step_gentle e db k s m n E F) as (L & F').
  - intros q ->. apply (T (snd q)). left. exists q. split; [left; reflexivity|reflexivity].
  - intros q a ->. apply (T (snd q)). right. exists q, a. split; [left; reflexivity|reflexivity].
  - etransitivity; [exact L|]. apply (IH _ _ _ _ n) in H; [exact H| |exact F'].
    intros a [(q & I & Q)|(q & b & I & Q)]; apply (T a); [left; exists q|right; exists q, b]; (split; [right; exact I|exact Q]).
Qed.

(** ** What holds *)
(** Without objects to be dropped, the claim holds for all tables of the database. *)
Theorem C117_keep_partial : forall e flt prefix src dest files warnings db db' k k' n c,
  unique_tables (ct_schemas src) -> unique_tables (ct_schemas dest) ->
  results SQLite flt prefix src dest false = Ok (files, warnings) ->
  run_counted e (forward files) db k = Some (db', k') -> sfind db n <> None -> numbers_stay n c k k'.
Proof.
  intros e flt prefix src dest files warnings db db' k k' n c Us Ud R H F _ _. cbn [results] in R.
  destruct (new_sqlite_migration src dest false) as [p| |] eqn:P; try discriminate. cbn [bindr] in R.
  destruct (sqlite_stmts p) as [l| |] eqn:L; try discriminate. cbn [bindr] in R. injection R as R _.
  assert (E : forward files = l).
  { rewrite <- R. destruct l as [|s l]; [reflexivity|]. cbn. rewrite app_nil_r. reflexivity. }
  rewrite E in H. pose proof (run_gentle e l db k db' k' n (sqlite_gentle src dest p l Us Ud P L) H F). unfold next_id. lia.
Qed.
Print Assumptions C117_keep_partial.

(** Otherwise it holds if the row with the largest number is still there.  Missing: tables that are rebuilt after this row was
    deleted. *)
Theorem C117_partial : forall e flt prefix src dest drop files warnings db db' k k' n c x r,
  unique_tables (ct_schemas src) -> sqlite_names (ct_schemas dest) -> agrees db src ->
  results SQLite flt prefix src dest drop = Ok (files, warnings) ->
  (forall m, id_of (en_default e m c) = 0%N) -> counted_well c db k ->
  calm e (forward files) db -> run_counted e (forward files) db k = Some (db', k') ->
  table_stays drop dest n -> column_stays drop dest n c ->
  sfind db n = Some x -> In c (st_columns x) -> In r (st_rows x) -> id_of (r c) = co_last k n -> numbers_stay n c k k'.
Proof.
  intros e flt prefix src dest drop files warnings db db' k k' n c x r Us Ud Ag R Nd W C H Ts Cs F Ic Ir L K K'.
  destruct (migration_keeps e flt prefix src dest drop files warnings db db' Us Ud Ag R C (run_counted_run _ _ _ _ _ _ H) n x F Ts) as (y & Fy & Ry & _).
  pose proof (run_well e c Nd _ _ _ _ _ H W) as W'.
  assert (Q : exists r', In r' (st_rows y) /\ r' c = r c).
  { clear - Ry Ir Ic Cs. induction Ry as [|a b la lb V Ry IH]; [destruct Ir|]. destruct Ir as [->|Ir].
    - exists b. split; [left; reflexivity|exact (V c Ic Cs)].
    - destruct (IH Ir) as (r' & I & E). exists r'. split; [right; exact I|exact E]. }
  destruct Q as (r' & Ir' & Er). apply sfind_in in Fy. destruct Fy as (Iy & Ny). rewrite <- Ny in K'. pose proof (W' y r' Iy Ir' K') as G. rewrite Er, L, Ny in G. unfold next_id. lia.
Qed.
Print Assumptions C117_partial.

(** Whatever was lost: no row that is there has a number that will be given again. *)
Theorem C117_no_clash : forall e l db db' k k' c y r, (forall m, id_of (en_default e m c) = 0%N) -> counted_well c db k ->
  run_counted e l db k = Some (db', k') -> In y db' -> In r (st_rows y) -> co_column k' (st_name y) = Some c ->
  (id_of (r c) < next_id k' (st_name y))%N.
Proof. intros e l db db' k k' c y r Nd W H I J K. pose proof (run_well e c Nd _ _ _ _ _ H W y r I J K). unfold next_id. lia. Qed.
Print Assumptions C117_no_clash.

(** A table that is rebuilt counts on from the largest number that is there, whatever was given before. *)
Lemma run_indexes : forall e l db k r, run_counted e (map (fun x => QCreateIndex (bare (ix_table x)) x false) l) db k = Some r -> r = (db, k).
Proof.
  induction l as [|x l IH]; intros db k r H; cbn [map run_counted] in H; [congruence|]. destruct (en_refuses _ _ _); [discriminate|]. exact (IH _ _ _ H).
Qed.
Theorem C117_rebuilt : forall e s d db k db' k' c x,
  run_counted e (copy_stmts s d) db k = Some (db', k') -> sfind db (tb_name d) = Some x -> auto_column d = Some c ->
  In c (map col_name (tb_columns s)) -> (exists col, In col (tb_columns d) /\ col_name col = c /\ col_generated col = false /\ col_expr col = []) ->
  co_column k' (tb_name d) = Some c /\ co_last k' (tb_name d) = largest (map (fun r => id_of (r c)) (st_rows x)).
Proof.
  intros e s d db k db' k' c x H F A Is (col & Ic & Nc & Gc & Ec). unfold copy_stmts in H. cbv zeta in H.
  set (cols := filter _ (map col_name (tb_columns s))) in H.
  assert (M : existsb (beqb c) cols = true).
  { apply existsb_exists. exists c. split; [|apply beqb_refl]. unfold cols. apply filter_In. split; [exact Is|]. apply bmem_In.
    rewrite <- Nc. apply in_map. apply filter_In. split; [exact Ic|]. rewrite Gc, Ec. reflexivity. }
  pose proof (new_name (tb_name d)) as Nn. set (t := tb_name d) in *. set (t' := t ++ B"_new") in *. cbn [app run_counted] in H.
  assert (B0 : beqb t' t = false) by (destruct (beqb_spec t' t); [contradiction|reflexivity]).
  assert (B1 : beqb t t' = false) by (destruct (beqb_spec t t'); [congruence|reflexivity]).
  destruct (en_refuses _ _ _); [discriminate|]. cbn [effect bare snd] in H. destruct (sfind db t') eqn:F'; [discriminate|].
  destruct (en_refuses _ _ _); [discriminate|]. rewrite !sfind_app, F, F' in H.
  cbn [sfind find st_name] in H. rewrite beqb_refl in H.
  cbn [counted bare snd set_counter co_column co_last] in H. rewrite beqb_refl in H.
  replace (auto_column _) with (Some c) in H by exact (eq_sym A). rewrite sfind_app, F in H.
  destruct (en_refuses _ _ _); [discriminate|]. destruct (sfind _ t) as [x1|]; [|discriminate]. destruct (drop_table _ _ _) as [db1|]; [|discriminate].
  destruct (en_refuses _ _ _); [discriminate|]. destruct (sfind db1 t'); [|discriminate]. destruct (sfind db1 t); [discriminate|].
  apply run_indexes in H. injection H as _ ->. cbn [set_counter co_column co_last bare snd]. rewrite !beqb_refl, ?B0, ?B1. cbn. rewrite ?beqb_refl.
  split; [reflexivity|]. rewrite N.max_0_l. f_equal. apply map_ext. intro r. unfold copied_row. rewrite M. reflexivity.
Qed.
Print Assumptions C117_rebuilt.

(** ** It does not hold: users 1 and 2 are left and user 3 was deleted; after a change of the type of a column, the next user
    gets the number 3 again. *)
Definition auto_id (t : bytes) : column :=
  Column [] t (B"id") (B"INTEGER") [] [] [] [] false false true false true [] [] false false [] false [] false.
Definition members (ty : bytes) : catalog :=
  sqlite_db [a_table (B"users") [auto_id (B"users"); a_column (B"users") (B"name") ty] [a_pkey (B"users")]].
Definition members_rows : sdb := rows_of (members (B"TEXT")) shop_rows.
Definition three_given (last : N) : counters :=
  Counters (fun n => if beqb n (B"users") then Some (B"id") else None) (fun n => if beqb n (B"users") then last else 0%N).
Definition next_after (dest : catalog) (drop : bool) (last : N) : option (option bytes * N) :=
  match run_counted (an_env true) (the_stmts (members (B"TEXT")) dest drop) members_rows (three_given last) with
  | Some (_, k) => Some (co_column k (B"users"), next_id k (B"users"))
  | None => None
  end.
Example given_again : next_id (three_given 3) (B"users") = 4%N /\ next_after (members (B"VARCHAR(50)")) true 3 = Some (Some (B"id"), 3%N).
Proof. split; vm_compute; reflexivity. Qed.
Theorem C117_refuted : exists src dest, sqlite_names (ct_schemas src) /\ sqlite_names (ct_schemas dest) /\ ~ keeps_numbers src dest true.
Proof.
  exists (members (B"TEXT")), (members (B"VARCHAR(50)")).
  assert (U : forall ty, sqlite_names (ct_schemas (members ty))).
  { intros ty. split; [apply sqlite_unique; [distinct|intros t [<-|[]]; reflexivity]|]. intros s t [<-|[]] [<-|[]]; split; distinct. }
  split; [apply U|]. split; [apply U|]. intro K.
  assert (R : exists files w db' k', results SQLite (fun _ => false) (B"1") (members (B"TEXT")) (members (B"VARCHAR(50)")) true = Ok (files, w)
     /\ calm (an_env true) (forward files) members_rows
     /\ run_counted (an_env true) (forward files) members_rows (three_given 3) = Some (db', k')
     /\ co_column k' (B"users") = Some (B"id") /\ next_id k' (B"users") = 3%N).
  { eexists. eexists. eexists. eexists. split; [vm_compute; reflexivity|]. split; [apply calm_check; vm_compute; reflexivity|].
    split; [vm_compute; reflexivity|]. split; vm_compute; reflexivity. }
  destruct R as (files & w & db' & k' & R1 & R2 & R3 & R4 & R5).
  assert (Ag : agrees members_rows (members (B"TEXT"))) by (apply rows_agree; distinct).
  assert (W : counted_well (B"id") members_rows (three_given 3)).
  { intros x r [<-|[]] [<-|[<-|[]]] _; vm_compute; discriminate. }
  specialize (K (an_env true) (fun _ => false) (B"1") files w members_rows db' (three_given 3) k' (B"users") (B"id") Ag R1 (fun _ => eq_refl) W R2 R3).
  assert (C : column_stays true (members (B"VARCHAR(50)")) (B"users") (B"id")).
  { right. eexists. eexists. split; [reflexivity|]. split; [reflexivity|]. split; reflexivity. }
  specialize (K C eq_refl R4). rewrite R5 in K. vm_compute in K. apply K. reflexivity.
Qed.
Print Assumptions C117_refuted.
(** ** Cases that meet the hypotheses *)
(** The user with the largest number is there. *)
Example kept_if_there : next_id (three_given 2) (B"users") = 3%N /\ next_after (members (B"VARCHAR(50)")) true 2 = Some (Some (B"id"), 3%N).
Proof. split; vm_compute; reflexivity. Qed.
Definition with_email : catalog :=
  sqlite_db [a_table (B"users") [auto_id (B"users"); a_column (B"users") (B"name") (B"TEXT"); a_column (B"users") (B"email") (B"TEXT")] [a_pkey (B"users")]].
(** A column is added: the table is not rebuilt. *)
Example kept_if_added : next_after with_email false 3 = Some (Some (B"id"), 4%N) /\ next_after with_email true 3 = Some (Some (B"id"), 4%N).
Proof. split; vm_compute; reflexivity. Qed.
