(** Databases that wipe does not wipe, one that it does, and what its statements are about. *)
From Coq Require Import Sorted.
From Verif Require Import GoStr GoStrFacts ModelSq SpecSql SqFacts ModelDdl ModelHistory ModelMigrate SpecInsert ModelWipe SpecWipe CsvFields WipeFacts WipeOrder.

Definition no_deps : deps := Deps (fun _ _ => false) (fun _ => None).
(** [plain_name], decided for names without the closing quote. *)
Definition plainb (d : dialect) (n : bytes) : bool := negb (bmem n (map B ["EXCLUDED"; "INSERTED"; "DELETED"; "NEW"; "OLD"]%string)) && negb (existsb (ceqb (id_close d)) n).
Lemma plainb_ok d n : plainb d n = true -> plain_name d n.
Proof.
  unfold plainb. intros H. apply andb_true_iff in H as [H1 H2]. apply negb_true_iff in H1, H2. split.
  - intros I. apply bmem_In in I. congruence.
  - intros (a & c & b & ->). rewrite existsb_app in H2. cbn [existsb] in H2.
    assert (E : ceqb (id_close d) (id_close d) = true) by (destruct d; reflexivity). rewrite E, !orb_true_r in H2. discriminate H2.
Qed.
Lemma names_ok d l : forallb (fun o => forallb (plainb d) (names_of o)) l = true -> forall o n, In o l -> In n (names_of o) -> plain_name d n.
Proof. intros H o n Io In_. rewrite forallb_forall in H. specialize (H o Io). rewrite forallb_forall in H. apply plainb_ok. auto. Qed.
Ltac each := cbn [In]; intros;
  repeat match goal with H : _ \/ _ |- _ => destruct H | H : False |- _ => destruct H end; subst.
Ltac nodups := repeat (apply NoDup_cons; [cbn [In]; intros X; repeat (destruct X as [X|X]; [discriminate X|]); exact X|]); apply NoDup_nil.
Ltac concrete := constructor;
  [each; cbn; auto
  |each; try discriminate; try (exfalso; match goal with H : forall n, OExt _ <> _ |- _ => exact (H _ eq_refl) end); auto
  |apply names_ok; vm_compute; reflexivity
  |nodups
  |each; try reflexivity; try discriminate; try (match goal with H : _ = _ :> bytes |- _ => vm_compute in H; discriminate H end)
  |each; try discriminate
  |each; cbn; auto].

Lemma overloaded : let l := [ORoutine (B"public") (B"area") (B"r circle") Function; ORoutine (B"public") (B"area") (B"r box") Function] in
  database Postgres no_deps (B"public") l /\ fails Postgres no_deps (B"public") l.
Proof.
  split; [concrete; (split; [discriminate|intros X; vm_compute in X; discriminate X])|]. eexists. vm_compute. reflexivity.
Qed.
Definition stat_deps : deps := Deps (fun _ _ => false) (fun o => match o with OView _ _ _ => Some (OExt (B"pg_stat_statements")) | _ => None end).
Lemma extension_view : let l := [OView (B"public") (B"pg_stat_statements") false; OTable (B"public") (B"customer") false; OExt (B"pg_stat_statements")] in
  database Postgres stat_deps (B"public") l /\ fails Postgres stat_deps (B"public") l.
Proof.
  split; [concrete; try (split; [discriminate|intros X; vm_compute in X; discriminate X])|eexists; vm_compute; reflexivity].
  cbn in *. injection H0 as <-. auto.
Qed.
Lemma aggregate : let l := [ORoutine (B"public") (B"product") (B"numeric") Aggregate; OTable (B"public") (B"customer") false] in
  database Postgres no_deps (B"public") l /\ fails Postgres no_deps (B"public") l.
Proof.
  split; [concrete; (split; [discriminate|intros X; vm_compute in X; discriminate X])|eexists; vm_compute; reflexivity].
Qed.
Definition bound_deps : deps := Deps (fun x o => match x, o with OView _ v _, OView _ t _ => beqb v (B"b") && beqb t (B"a") | _, _ => false end) (fun _ => None).
Lemma bound : let l := [OView (B"dbo") (B"a") false; OView (B"dbo") (B"b") false] in
  database SQLServer bound_deps (B"dbo") l /\ fails SQLServer bound_deps (B"dbo") l.
Proof. split; [concrete|eexists; vm_compute; reflexivity]. Qed.
Lemma spaced : let l := [OView (B"public") (B"my view") false; OTable (B"public") (B"customer") false] in
  database Postgres no_deps (B"public") l /\ fails Postgres no_deps (B"public") l.
Proof.
  split; [concrete; (split; [discriminate|intros X; vm_compute in X; discriminate X])|eexists; vm_compute; reflexivity].
Qed.
Lemma parameterless : let l := [ORoutine (B"shop") (B"today") [] Function; OTable (B"shop") (B"customer") false] in
  database MySQL no_deps (B"shop") l /\ fails MySQL no_deps (B"shop") l.
Proof. split; [concrete; contradiction|eexists; vm_compute; reflexivity]. Qed.
Lemma wipe_fails :
  (exists k l, database Postgres k (B"public") l /\ (exists s n a b, In (ORoutine s n a Function) l /\ In (ORoutine s n b Function) l /\ a <> b) /\ fails Postgres k (B"public") l)
  /\ (exists k l v, database Postgres k (B"public") l /\ In (OView (B"public") v false) l /\ held k (OView (B"public") v false) <> None /\ fails Postgres k (B"public") l)
  /\ (exists k l n a, database Postgres k (B"public") l /\ In (ORoutine (B"public") n a Aggregate) l /\ fails Postgres k (B"public") l)
  /\ (exists k l v t, database SQLServer k (B"dbo") l /\ dep k (OView (B"dbo") v false) (OView (B"dbo") t false) = true /\ fails SQLServer k (B"dbo") l)
  /\ (exists k l n, database Postgres k (B"public") l /\ In (OView (B"public") n false) l /\ ~ lower_name n /\ fails Postgres k (B"public") l)
  /\ (exists k l n, database MySQL k (B"shop") l /\ In (ORoutine (B"shop") n [] Function) l /\ fails MySQL k (B"shop") l).
Proof.
  destruct overloaded as [A1 A2], extension_view as [B1 B2], aggregate as [C1 C2], bound as [D1 D2], spaced as [E1 E2], parameterless as [F1 F2]. split; [|split; [|split; [|split; [|split]]]].
  - eexists _, _. split; [exact A1|split; [|exact A2]]. do 4 eexists. split; [left; reflexivity|]. split; [right; left; reflexivity|]. discriminate.
  - eexists _, _, _. split; [exact B1|split; [left; reflexivity|split; [discriminate|exact B2]]].
  - eexists _, _, _, _. split; [exact C1|split; [left; reflexivity|exact C2]].
  - exists bound_deps. eexists _, (B"b"), (B"a"). split; [exact D1|split; [reflexivity|exact D2]].
  - eexists _, _, _. split; [exact E1|split; [left; reflexivity|split; [|exact E2]]]. intros (_ & _ & _ & X & _). destruct (X " "%char) as [Y _]; [right; right; left; reflexivity|apply Y; reflexivity].
  - eexists _, _, _. split; [exact F1|split; [left; reflexivity|exact F2]].
Qed.
Ltac left_over := exists no_deps; eexists [_], _; split; [concrete|split; [|split; [|split; [|vm_compute; reflexivity]]]].
Lemma wipe_leaves :
  leaves Postgres (B"public") (OTable (B"public") (B"measurement") true)
  /\ leaves Postgres (B"public") (OTable (B"pgdata") (B"customer") false)
  /\ leaves Postgres (B"public") (OView (B"public") (B"Report") false)
  /\ leaves MySQL (B"shop") (ORoutine (B"shop") (B"refresh") [] Procedure)
  /\ leaves SQLServer (B"dbo") (ORoutine (B"dbo") (B"split") (B"@x int") Procedure)
  /\ leaves SQLite [] (OTable [] (B"sqliteish") false).
Proof.
  assert (L : forall d cur o, database d no_deps cur [o] -> of_user d cur o -> o <> OExt (B"plpgsql") ->
    wipe (server d no_deps cur) true true true d false (introspect d cur (created no_deps) [o]) [o] = (Done, [], [o]) -> leaves d cur o).
  { intros d cur o D U N R. exists no_deps, [o], [o]. split; [exact D|split; [exact U|split; [|split; [left; reflexivity|exact R]]]]. intros [X|X]; [contradiction|discriminate X]. }
  assert (P : forall s, s = B"public" \/ s = B"pgdata" -> s <> B"information_schema" /\ ~ has_prefix s (B"pg_") = true).
  { intros s [->| ->]; (split; [discriminate|intros X; vm_compute in X; discriminate X]). }
  split; [|split; [|split; [|split; [|split]]]]; (apply L; [concrete|cbn; auto|discriminate|vm_compute; reflexivity]); try (apply P; auto).
Qed.
Lemma not_wiped : ~ forall d k cur l, d <> Other -> database d k cur l ->
  exists l', wipe (server d k cur) true true true d false (introspect d cur (created k) l) l = (Done, [], l')
    /\ forall o, In o l' -> of_user d cur o -> of_plpgsql k o.
Proof.
  intros H. destruct wipe_leaves as ((k & l & l' & D & U & N & I & E) & _). destruct (H Postgres k (B"public") l ltac:(discriminate) D) as (l2 & E2 & A).
  rewrite E in E2. injection E2 as <-. apply N, A; assumption.
Qed.
Lemma others_dropped : ~ forall d k cur l l', database d k cur l ->
  wipe (server d k cur) true true true d false (introspect d cur (created k) l) l = (Done, [], l') ->
  forall o, In o l -> ~ of_user d cur o -> In o l'.
Proof.
  intros H. specialize (H MySQL no_deps (B"shop") [OTable (B"payroll") (B"salary") false] []).
  apply (H ltac:(concrete; contradiction) ltac:(vm_compute; reflexivity) (OTable (B"payroll") (B"salary") false)); [left; reflexivity|]. discriminate.
Qed.

(** ** What the statements are about *)
Lemma not_system d k l o : In (Some o) (all_items d (created k) l) -> In o l /\ ~ of_system d o.
Proof.
  intros H.
  assert (G : exists sel, In o (filter sel l) /\ (sel o = true -> ~ of_system d o)).
  { assert (Sc : forall s, schema_listed d s = true -> match d with
        | Postgres => ~ (s = B"information_schema" \/ has_prefix s (B"pg_") = true)
        | MySQL => ~ In s (map B ["mysql"; "information_schema"; "performance_schema"; "sys"]%string) | _ => True end).
    { intros s Hs. unfold schema_listed in Hs. destruct d; try exact I.
      - apply andb_true_iff in Hs as [H1 H2]. apply negb_true_iff in H1, H2. intros [->|P]; [rewrite beqb_refl in H1; discriminate H1|].
        apply has_prefix_iff in P as (r & ->). vm_compute in H2. discriminate H2.
      - apply negb_true_iff in Hs. intros I. rewrite (proj2 (one_of_In _ _) I) in Hs. discriminate Hs. }
    assert (Rl : forall n, relation_listed d n = true -> d = SQLite -> has_prefix (to_lower n) (B"sqlite_") <> true).
    { intros n Hn -> P. unfold relation_listed in Hn. apply negb_true_iff in Hn. apply has_prefix_iff in P as (r & P). rewrite P in Hn. vm_compute in Hn. discriminate Hn. }
    unfold all_items in H. rewrite !in_app_iff in H. destruct H as [H|[H|H]].
    - apply in_map_iff in H as (y & [= ->] & H). unfold first_objs in H. apply in_app_iff in H as [H|H].
      + exists (sel_view d l). split; [exact H|]. intros S0. destruct o; try discriminate S0. cbn [sel_view] in S0. apply andb_true_iff in S0 as [S0 _]. apply andb_true_iff in S0 as [S1 S2].
        specialize (Sc _ S1). specialize (Rl _ S2). destruct d; cbn [of_system schema_of]; auto.
      + exists (sel_fk d). split; [destruct d; cbn in H; try contradiction; exact H|]. intros S0. destruct o; try discriminate S0. specialize (Sc _ S0). destruct d; cbn [of_system schema_of]; auto.
    - exfalso. revert H. clear. unfold pragma. destruct d; try (intros []). destruct (filter (sel_table SQLite) l); intros H; [destruct H|]. destruct H as [H|[]]; discriminate H.
    - apply in_map_iff in H as (y & [= ->] & H). unfold later_objs in H. rewrite !in_app_iff in H. destruct H as [H|[H|[H|[H|H]]]].
      + exists (sel_table d). split; [exact H|]. intros S0. destruct o; try discriminate S0. cbn [sel_table] in S0. apply andb_true_iff in S0 as [S0 _]. apply andb_true_iff in S0 as [S1 S2].
        specialize (Sc _ S1). specialize (Rl _ S2). destruct d; cbn [of_system schema_of]; auto.
      + exists (sel_routine d l (created k)). split; [destruct d; cbn in H; try contradiction; exact H|]. intros S0. destruct o; try discriminate S0. cbn [sel_routine] in S0.
        apply andb_true_iff in S0 as [S0 _]. apply andb_true_iff in S0 as [S1 _]. specialize (Sc _ S1). destruct d; cbn [of_system schema_of]; auto.
      + exists (sel_enum d). split; [destruct d; cbn in H; try contradiction; exact H|]. intros S0. destruct o; try discriminate S0. specialize (Sc _ S0). destruct d; cbn [of_system schema_of]; auto.
      + exists (sel_domain d). split; [destruct d; cbn in H; try contradiction; exact H|]. intros S0. destruct o; try discriminate S0. specialize (Sc _ S0). destruct d; cbn [of_system schema_of]; auto.
      + exists sel_ext. split; [destruct d; cbn in H; try contradiction; exact H|]. intros S0. destruct o; try discriminate S0. cbn [sel_ext] in S0.
        destruct d; cbn in H; try contradiction. cbn [of_system]. intros ->. discriminate S0. }
  destruct G as (sel & I & G). apply filter_In in I as [I S0]. auto.
Qed.
Lemma script_about d k cur l : (forall o, In o l -> (forall n, o <> OExt n) -> schema_of o = [] -> cur = []) ->
  (forall o n, In o l -> In n (names_of o) -> plain_name d n) ->
  forall pr r t l', wipe (server d k cur) true true pr d true (introspect d cur (created k) l) l = (r, t, l') ->
  exists xs, read_script d t = Some xs /\ forall x, In x xs -> x = XDefer \/ exists o, In o l /\ about cur x o /\ ~ of_system d o.
Proof.
  intros Hs Hn pr r t l' E. unfold wipe in E. destruct (statements d (introspect d cur (created k) l)) as [s|] eqn:Es.
  2:{ injection E as <- <- <-. exists []. split; [reflexivity|intros x []]. }
  injection E as <- <- <-. rewrite statements_items in Es.
  - injection Es as <-. exists (map (item_ast d cur) (all_items d (created k) l)). split.
    + apply script_read. intros o n Io Jn. apply (Hn o n); [|exact Jn]. apply not_system in Io. tauto.
    + intros x Ix. apply in_map_iff in Ix as ([o|] & <- & Io); [right|left; reflexivity]. destruct (not_system _ _ _ _ Io) as [Il Ns]. exists o.
      split; [exact Il|]. split; [apply about_ast, Hs, Il|exact Ns].
  - intros ->. discriminate Es.
  - intros X. unfold statements, introspect in Es. cbn [q_schema q_views] in Es. rewrite X in Es. destruct d; discriminate Es.
  - intros X. unfold statements, introspect in Es. cbn [q_schema q_views q_fks q_tables q_routines q_enums q_domains q_exts] in Es. rewrite X in Es.
    destruct d; try discriminate Es; try (destruct (list_views _ l); discriminate Es).
    unfold list_routines in X. destruct (existsb _ l) eqn:E; [|discriminate X]. apply existsb_exists in E as ([] & _ & E); try discriminate E. rewrite andb_false_r in E. discriminate E.
Qed.

(** ** A database that is wiped *)
Definition pub := B"public".
Definition shop : list obj :=
  [OTable pub (B"customer") false; OTable pub (B"order") false; OTable (B"audit") (B"log") false;
   OFk pub (B"customer") (B"customer_last_fkey"); OFk pub (B"order") (B"order_customer_fkey");
   OView pub (B"totals") false; OView pub (B"totals_mat") true; OView pub (B"best") false;
   ORoutine pub (B"discount") (B"n numeric") Function; ORoutine pub (B"uuid_nil") [] Function; OEnum pub (B"status");
   OExt (B"uuid-ossp"); ORoutine pub (B"plpgsql_call_handler") [] Function; OExt (B"plpgsql")].
(** customer and order refer to each other; best is a view of totals, which is a view of order;
    totals_mat uses discount; order has a column of type status. *)
Definition shop_deps : deps := Deps
  (fun x o => match x, o with
    | OFk _ t _, OTable _ n _ => (beqb t (B"customer") && beqb n (B"order")) || (beqb t (B"order") && beqb n (B"customer"))
    | OView _ v _, OView _ w _ => beqb v (B"best") && beqb w (B"totals")
    | OView _ v _, OTable _ n _ => (beqb v (B"best") || beqb v (B"totals") || beqb v (B"totals_mat")) && beqb n (B"order")
    | OView _ v _, ORoutine _ n _ _ => beqb v (B"totals_mat") && beqb n (B"discount")
    | _, _ => false end)
  (fun o => match o with
    | ORoutine _ n _ _ => if beqb n (B"uuid_nil") then Some (OExt (B"uuid-ossp")) else if beqb n (B"plpgsql_call_handler") then Some (OExt (B"plpgsql")) else None
    | _ => None end).
Lemma low_names n : forallb (fun c => 35 <=? nat_of_ascii c) n = true -> n <> [] -> to_lower n = n -> ~ In "."%char n -> lower_name n.
Proof.
  intros H N L D. rewrite forallb_forall in H. split; [exact N|split; [exact L|split; [exact D|split]]].
  - intros c I. specialize (H c I). lia.
  - intros r ->. specialize (H _ (or_introl eq_refl)). discriminate H.
Qed.
Ltac low := apply low_names; [vm_compute; reflexivity|discriminate|vm_compute; reflexivity|cbn; let Y := fresh in intros Y; repeat (destruct Y as [Y|Y]; [discriminate Y|]); exact Y].
Lemma shop_wipeable : wipeable Postgres shop_deps pub shop.
Proof.
  constructor; try discriminate.
  - intros o _. exact I.
  - unfold shop. each; try discriminate. exfalso. eapply H0. reflexivity. exfalso. eapply H0. reflexivity.
  - apply names_ok. vm_compute. reflexivity.
  - nodups.
  - unfold shop. each; try reflexivity; discriminate.
  - unfold shop. each; cbn [overlooked schema_of]; try (intros []; fail); try (intros [X|(c & r & X)]; discriminate X);
      (intros [X|[X|(c & r & X)]]; [apply X; split; low|discriminate X|discriminate X]).
  - unfold shop. each; try discriminate; cbn in H0; try discriminate H0; injection H0 as <-; (split; [eexists; split; [reflexivity|cbn; tauto]|do 4 eexists; reflexivity]).
  - intros H. contradiction.
  - intros s t n o H. destruct o; try exact I; discriminate H.
Qed.
