(** C50: wipe drops every object in a workable order.  C71: wipe leaves alone what does not belong
    to the database of the connection. *)
From Coq Require Import Sorted.
From Verif Require Import GoStr GoStrFacts ModelSq SpecSql ModelDdl ModelHistory ModelMigrate SpecInsert ModelWipe SpecWipe WipeFacts WipeOrder WipeWitness.

(** As stated: whatever the database holds, afterwards the user's objects are gone except those of
    plpgsql. *)
Theorem C50_refuted : ~ forall d k cur l, d <> Other -> database d k cur l ->
  exists l', wipe (server d k cur) true true true d false (introspect d cur (created k) l) l = (Done, [], l')
    /\ forall o, In o l' -> of_user d cur o -> of_plpgsql k o.
Proof. exact not_wiped. Qed.
Print Assumptions C50_refuted.
(** The ways in which it fails: the command fails and nothing at all is dropped ... *)
Theorem C50_fails_refuted :
  (exists k l, database Postgres k (B"public") l /\ (exists s n a b, In (ORoutine s n a Function) l /\ In (ORoutine s n b Function) l /\ a <> b) /\ fails Postgres k (B"public") l)
  /\ (exists k l v, database Postgres k (B"public") l /\ In (OView (B"public") v false) l /\ held k (OView (B"public") v false) <> None /\ fails Postgres k (B"public") l)
  /\ (exists k l n a, database Postgres k (B"public") l /\ In (ORoutine (B"public") n a Aggregate) l /\ fails Postgres k (B"public") l)
  /\ (exists k l v t, database SQLServer k (B"dbo") l /\ dep k (OView (B"dbo") v false) (OView (B"dbo") t false) = true /\ fails SQLServer k (B"dbo") l)
  /\ (exists k l n, database Postgres k (B"public") l /\ In (OView (B"public") n false) l /\ ~ lower_name n /\ fails Postgres k (B"public") l)
  /\ (exists k l n, database MySQL k (B"shop") l /\ In (ORoutine (B"shop") n [] Function) l /\ fails MySQL k (B"shop") l).
Proof. exact wipe_fails. Qed.
Print Assumptions C50_fails_refuted.
(** ... or it succeeds and leaves objects behind. *)
Theorem C50_leaves_refuted :
  leaves Postgres (B"public") (OTable (B"public") (B"measurement") true)
  /\ leaves Postgres (B"public") (OTable (B"pgdata") (B"customer") false)
  /\ leaves Postgres (B"public") (OView (B"public") (B"Report") false)
  /\ leaves MySQL (B"shop") (ORoutine (B"shop") (B"refresh") [] Procedure)
  /\ leaves SQLServer (B"dbo") (ORoutine (B"dbo") (B"split") (B"@x int") Procedure)
  /\ leaves SQLite [] (OTable [] (B"sqliteish") false).
Proof. exact wipe_leaves. Qed.
Print Assumptions C50_leaves_refuted.
(** MySQL, whatever the database holds: the routines cannot be listed exactly if there is a function without parameters and
    without a namesake with parameters; otherwise exactly the routines whose name has a parameter are dropped. *)
Theorem C50_mysql_routines : forall l,
  (list_routines MySQL (fun _ => false) l = None <-> exists s n, schema_listed MySQL s = true /\ In (ORoutine s n [] Function) l /\ forall a k, In (ORoutine s n a k) l -> a = [])
  /\ (forall rs, list_routines MySQL (fun _ => false) l = Some rs -> forall s n x, In (s, n, x) rs <->
      schema_listed MySQL s = true /\ (exists a k, x = kind_text k /\ In (ORoutine s n a k) l) /\ exists a k, In (ORoutine s n a k) l /\ a <> []).
Proof.
  intros l. assert (P : forall s n, some_routine l s n has_parameter = true <-> exists a k, In (ORoutine s n a k) l /\ a <> []).
  { intros s n. unfold some_routine. rewrite existsb_exists. split.
    - intros (o & I & H). destruct o as [| | |s' n' a k| | |]; try discriminate H. apply andb_true_iff in H. destruct H as (H & F). apply andb_true_iff in H. destruct H as (E1 & E2). apply beqb_eq in E1, E2. subst. exists a, k. split; [exact I|]. intros ->. discriminate F.
    - intros (a & k & I & N). eexists. split; [exact I|]. cbn. rewrite !beqb_refl. destruct a; [contradiction|reflexivity]. }
  assert (Q : forall s n, some_routine l s n has_parameter_row = true <-> exists a k, In (ORoutine s n a k) l /\ (a <> [] \/ k = Function)).
  { intros s n. unfold some_routine. rewrite existsb_exists. split.
    - intros (o & I & H). destruct o as [| | |s' n' a k| | |]; try discriminate H. apply andb_true_iff in H. destruct H as (H & F). apply andb_true_iff in H. destruct H as (E1 & E2). apply beqb_eq in E1, E2. subst. exists a, k. split; [exact I|]. destruct a; [right|left; discriminate]. destruct k; try discriminate F; reflexivity.
    - intros (a & k & I & N). eexists. split; [exact I|]. cbn. rewrite !beqb_refl. destruct a; [|reflexivity]. destruct N as [N|N]; [contradiction|subst k; reflexivity]. }
  assert (R : forall s n, some_routine l s n has_parameter = false <-> forall a k, In (ORoutine s n a k) l -> a = []).
  { intros s n. split.
    - intros H a k I. destruct a as [|c a]; [reflexivity|]. exfalso. assert (X : some_routine l s n has_parameter = true) by (apply P; exists (c :: a), k; split; [exact I|discriminate]). congruence.
    - intros H. destruct (some_routine l s n has_parameter) eqn:E; [|reflexivity]. apply P in E. destruct E as (a & k & I & N). destruct (N (H a k I)). }
  assert (F : list_routines MySQL (fun _ => false) l = None <-> exists s n, schema_listed MySQL s = true /\ In (ORoutine s n [] Function) l /\ forall a k, In (ORoutine s n a k) l -> a = []).
  { unfold list_routines. match goal with |- (if ?b then _ else _) = None <-> _ => destruct b eqn:E end.
    - split; [intros _|reflexivity]. apply existsb_exists in E. destruct E as (o & I & H). destruct o as [| | |s n a k| | |]; try discriminate H. apply andb_true_iff in H. destruct H as (H & G). cbn [routine_fails routine_listed] in *. rewrite andb_true_r in H. apply andb_true_iff in H. destruct H as (H1 & H2).
      apply negb_true_iff in G. pose proof (proj1 (R s n) G) as G'. apply Q in H2. destruct H2 as (a' & k' & J & [N|N]); [destruct (N (G' a' k' J))|]. subst k'. rewrite (G' a' Function J) in J. exists s, n. auto.
    - split; [discriminate|]. intros (s & n & H1 & I & G). exfalso. rewrite <- not_true_iff_false in E. apply E. apply existsb_exists. exists (ORoutine s n [] Function). split; [exact I|]. cbn [routine_fails routine_listed]. rewrite H1, (proj2 (R s n) G). cbn [andb negb]. rewrite andb_true_r. rewrite andb_true_r. apply Q. exists [], Function. auto. }
  split; [exact F|]. intros rs E s n x. unfold list_routines in E. match type of E with (if ?b then _ else _) = _ => destruct b eqn:Z; [discriminate E|] end. injection E as <-. rewrite in_flat_map. split.
  - intros (o & I & H). destruct o as [| | |s' n' a k| | |]; try destruct H. destruct (_ && _ && _) eqn:L; [|destruct H]. destruct H as [H|[]]. injection H as -> -> <-. cbn [routine_listed negb] in L. rewrite andb_true_r in L. apply andb_true_iff in L. destruct L as (L1 & L2). change (schema_listed MySQL s = true) in L1.
    split; [exact L1|]. split; [exists a, k; auto|]. apply P. destruct (some_routine l s n has_parameter) eqn:Y; [reflexivity|]. exfalso. rewrite <- not_true_iff_false in Z. apply Z, existsb_exists. exists (ORoutine s n a k). split; [exact I|]. cbn [routine_fails routine_listed]. rewrite L1, L2, Y. reflexivity.
  - intros (L & (a & k & -> & I) & J). exists (ORoutine s n a k). split; [exact I|]. cbn [schema_listed] in L. rewrite L. assert (X : some_routine l s n has_parameter_row = true) by (apply Q; destruct J as (a' & k' & J & N); exists a', k'; auto). rewrite X. left. reflexivity.
Qed.
Print Assumptions C50_mysql_routines.
(** Postgres, whatever the database holds: the views cannot be listed exactly if the name of one (or of its schema) would have
    to be quoted; otherwise a view is dropped exactly if there is a table or a view that has its name in lower case. *)
Theorem C50_postgres_views : forall l,
  (list_views Postgres l = None <-> exists s n m, In (OView s n m) l /\ schema_listed Postgres s = true /\ (reg_bad s = true \/ reg_bad n = true))
  /\ (forall vs, list_views Postgres l = Some vs -> forall s n m, In (s, n, m) vs <->
      In (OView s n m) l /\ schema_listed Postgres s = true /\
      exists x, In (OView (to_lower s) (to_lower n) x) l \/ In (OTable (to_lower s) (to_lower n) x) l).
Proof.
  intros l. assert (R : forall s n, reg_found l s n = true <-> exists x, In (OView (to_lower s) (to_lower n) x) l \/ In (OTable (to_lower s) (to_lower n) x) l).
  { intros s n. unfold reg_found. rewrite existsb_exists. split.
    - intros (o & I & H). destruct o; try discriminate H; apply andb_true_iff in H; destruct H as (E1 & E2); apply beqb_eq in E1, E2; subst; eauto.
    - intros (x & [I|I]); eexists; (split; [exact I|]); cbn beta iota; rewrite !beqb_refl; reflexivity. }
  unfold list_views. split.
  - match goal with |- (if ?b then _ else _) = None <-> _ => destruct b eqn:E end.
    + split; [intros _|reflexivity]. apply existsb_exists in E. destruct E as (o & I & H). destruct o as [s n m| | | | | |]; try discriminate H.
      unfold view_fails in H. apply andb_true_iff in H. destruct H as (H1 & H2). apply orb_true_iff in H2. exists s, n, m. auto.
    + split; [discriminate|]. intros (s & n & m & I & L & H). exfalso. rewrite <- not_true_iff_false in E. apply E, existsb_exists.
      exists (OView s n m). split; [exact I|]. unfold view_fails. rewrite L. apply orb_true_iff. exact H.
  - intros vs. match goal with |- (if ?b then _ else _) = _ -> _ => destruct b; [discriminate|] end. intros [= <-] s n m. rewrite in_flat_map. split.
    + intros (o & I & H). destruct o as [s' n' m'| | | | | |]; try destruct H. unfold view_listed in H.
      match type of H with In _ (if ?b then _ else _) => destruct b eqn:B; [|destruct H] end. destruct H as [H|[]]. injection H as -> -> ->.
      apply andb_true_iff in B. destruct B as (B & B3). apply andb_true_iff in B. destruct B as (B1 & _). split; [exact I|]. split; [exact B1|]. apply R, B3.
    + intros (I & L & H). exists (OView s n m). split; [exact I|]. unfold view_listed. rewrite L, (proj2 (R s n) H). left. reflexivity.
Qed.
Print Assumptions C50_postgres_views.
Example C50_postgres_views_case :
  list_views Postgres [OView (B"public") (B"V") false; OTable (B"public") (B"v") false; OView (B"public") (B"W") false] = Some [(B"public", B"V", false)].
Proof. reflexivity. Qed.
(** What holds: a database without such objects is wiped, except for plpgsql. *)
Theorem C50_wiped_partial : forall d k cur l, wipeable d k cur l -> forall pr, d <> Other ->
  exists l', wipe (server d k cur) true true pr d false (introspect d cur (created k) l) l = (Done, [], l')
    /\ incl l' l /\ (forall o, In o l' -> of_plpgsql k o)
    /\ ((forall o, dep k (OExt (B"plpgsql")) o = false) -> In (OExt (B"plpgsql")) l -> In (OExt (B"plpgsql")) l').
Proof. exact wiped. Qed.
Print Assumptions C50_wiped_partial.
(** Every object has its statement, no statement occurs twice, and they are in order. *)
Theorem C50_order_partial : forall d k cur l, wipeable d k cur l -> forall pr, d <> Other ->
  exists t xs, wipe (server d k cur) true true pr d true (introspect d cur (created k) l) l = (if pr then Done else Failed, t, l)
    /\ read_script d t = Some xs /\ NoDup xs /\ StronglySorted (fun x y => rank x <= rank y) xs
    /\ (forall o, In o l -> held k o = None -> o <> OExt (B"plpgsql") -> exists x, In x xs /\ about cur x o).
Proof. exact script_order. Qed.
Print Assumptions C50_order_partial.
(** A dry run changes nothing, whatever the server does with scripts, and prints what would be
    executed otherwise. *)
Theorem C50_dry_run : forall W (exec : bytes -> W -> bool * W) b c pr d q w o t w',
  wipe exec b c pr d true q w = (o, t, w') ->
  w' = w /\ (pr = true -> o = Done -> forall (exec' : bytes -> W -> bool * W) b' c' pr' v,
    snd (wipe exec' b' c' pr' d false q v) = v \/ (t <> [] /\ snd (wipe exec' b' c' pr' d false q v) = snd (exec' t v))).
Proof. exact @dry_run. Qed.
Print Assumptions C50_dry_run.
(** Except in MySQL, a wipe that fails has dropped nothing. *)
Theorem C50_all_or_nothing : forall W (exec : bytes -> W -> bool * W) b c pr d dry q w o t w', d <> MySQL ->
  wipe exec b c pr d dry q w = (o, t, w') -> o <> Done -> w' = w.
Proof. exact @atomic. Qed.
Print Assumptions C50_all_or_nothing.
Example C50_example : wipeable Postgres shop_deps (B"public") shop
  /\ snd (wipe (server Postgres shop_deps (B"public")) true true true Postgres false (introspect Postgres (B"public") (created shop_deps) shop) shop)
     = [ORoutine (B"public") (B"plpgsql_call_handler") [] Function; OExt (B"plpgsql")]
  /\ List.length shop = 14.
Proof. split; [exact shop_wipeable|]. split; vm_compute; reflexivity. Qed.
(** MySQL: a failure in the middle leaves the database half wiped. *)
Example C50_mysql_example : let l := [OTable (B"shop") (B"a") false; OTable (B"shop") (B"b") false] in
  wipe (fun _ w => (false, tl w)) true true true MySQL false (introspect MySQL (B"shop") (fun _ => false) l) l = (Failed, [], [OTable (B"shop") (B"b") false]).
Proof. vm_compute. reflexivity. Qed.

(** C71.  As stated: the objects of other databases of the server remain. *)
Theorem C71_refuted : ~ forall d k cur l l', database d k cur l ->
  wipe (server d k cur) true true true d false (introspect d cur (created k) l) l = (Done, [], l') ->
  forall o, In o l -> ~ of_user d cur o -> In o l'.
Proof. exact others_dropped. Qed.
Print Assumptions C71_refuted.
(** What holds: each statement is about an object of the database that is not one of the system. *)
Theorem C71_system_partial : forall d k cur l, (forall o, In o l -> (forall n, o <> OExt n) -> schema_of o = [] -> cur = []) ->
  (forall o n, In o l -> In n (names_of o) -> plain_name d n) ->
  forall pr r t l', wipe (server d k cur) true true pr d true (introspect d cur (created k) l) l = (r, t, l') ->
  exists xs, read_script d t = Some xs /\ forall x, In x xs -> x = XDefer \/ exists o, In o l /\ about cur x o /\ ~ of_system d o.
Proof. exact script_about. Qed.
Print Assumptions C71_system_partial.
Example C71_example : read_script MySQL (snd (fst (wipe (server MySQL no_deps (B"shop")) true true true MySQL true
    (introspect MySQL (B"shop") (created no_deps) [OTable (B"shop") (B"a") false; OTable (B"payroll") (B"salary") false; OTable (B"sys") (B"sys_config") false]) [])))
  = Some [XTable [B"a"] true; XTable [B"payroll"; B"salary"] true].
Proof. vm_compute. reflexivity. Qed.
