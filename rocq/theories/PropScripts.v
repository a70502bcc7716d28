(** C118: a server is asked only for what its version has. *)
From Verif Require Import GoStr GoStrFacts ModelCatalog ModelDdl ModelVersion ModelScripts SpecVersion SpecServers VersionFacts PropVersion.
From Coq Require Import Lia ZifyBool ZifyN.

Definition C118_full : Prop := forall d r p kinds types system l, release_ok d r -> is_product d r p ->
  catalog_requests d (reported r) kinds types system = Ok l -> answered p (rl_nums r) l.

(** Requests, one by one. *)
Definition fine (p : product) (v : list N) (l : list feature) : bool := forallb (has p v) l.
Lemma answered_app p v a b : answered p v (a ++ b) <-> answered p v a /\ answered p v b.
Proof.
  unfold answered. split.
  - intros H. split; intros s fs f I; apply (H s fs f); apply in_app_iff; [left|right]; exact I.
  - intros (X & Y) s fs f I. apply in_app_iff in I as [I|I]; [apply (X s fs f I)|apply (Y s fs f I)].
Qed.
Lemma answered_request d p v f s : answered p v (request d f s) <-> (has_script d s = true -> fine p v (uses d f s) = true).
Proof.
  unfold request, answered, fine. destruct (has_script d s).
  - split.
    + intros H _. apply forallb_forall. intros x I. apply (H s (uses d f s) x); [left; reflexivity|exact I].
    + intros H s' fs x [E|[]] I. injection E as <- <-. apply (proj1 (forallb_forall _ _) (H eq_refl) x I).
  - split; [discriminate|]. intros _ s' fs x [].
Qed.
Lemma answered_nil p v : answered p v [].
Proof. intros s fs f []. Qed.
Lemma answered_if p v (b : bool) l : answered p v (if b then l else []) <-> (b = true -> answered p v l).
Proof. destruct b; split; auto; intros _; [discriminate|apply answered_nil]. Qed.
Lemma answered_flat d p v f l : answered p v (flat_map (request d f) l) <-> (forall s, In s l -> has_script d s = true -> fine p v (uses d f s) = true).
Proof.
  induction l as [|s l IH]; cbn [flat_map]; [split; [intros _ s []|intros _; apply answered_nil]|].
  rewrite answered_app, answered_request, IH. split.
  - intros (X & Y) s' [<-|I]; [exact X|exact (Y s' I)].
  - intros H. split; [apply H; left; reflexivity|intros s' I; apply H; right; exact I].
Qed.

(** Versions. *)
Ltac cases := cbn [lower_than at_least map]; repeat match goal with |- context [if ?b then _ else _] => destruct b eqn:? end; lia.
Lemma at_sqlite37 v : at_least v [3; 33]%N = true -> lower_than (map Z.of_N v) [3; 37]%Z = negb (at_least v [3; 37]%N).
Proof. destruct v as [|x [|y [|z v]]]; cases. Qed.
Lemma at_one v n : v <> [] -> lower_than (map Z.of_N v) [Z.of_N n] = negb (at_least v [n]).
Proof. destruct v as [|x v]; [congruence|]. intros _. cbn [lower_than at_least map]. destruct (map Z.of_N v); cases. Qed.
Lemma at_least_trans : forall a b c, at_least b c = true -> at_least a b = true -> at_least a c = true.
Proof.
  induction a as [|x a IH]; intros b c.
  - revert b. induction c as [|z c IHc]; intros b; [reflexivity|]. destruct b as [|y b]; cbn [at_least].
    + intros H _. exact H.
    + intros H1 H2. apply andb_true_iff in H2 as (Y & H2). apply N.eqb_eq in Y. subst y. apply orb_true_iff in H1 as [H1|H1]; [lia|].
      apply andb_true_iff in H1 as (Z0 & H1). rewrite Z0. apply (IHc b H1 H2).
  - destruct c as [|z c]; [reflexivity|]. destruct b as [|y b]; cbn [at_least].
    + intros H _. apply andb_true_iff in H as (Z0 & H). apply N.eqb_eq in Z0. subst z. apply orb_true_iff. destruct (0 <? x)%N eqn:X; [auto|right]. replace x with 0%N by lia. cbn [N.eqb andb].
      apply (IH [] c H). clear. destruct a; reflexivity.
    + intros H1 H2. apply orb_true_iff in H1, H2. apply orb_true_iff.
      destruct H1 as [H1|H1], H2 as [H2|H2]; try (left; lia); try (apply andb_true_iff in H1 as (H1 & H1'); left; lia); try (apply andb_true_iff in H2 as (H2 & H2'); left; lia).
      apply andb_true_iff in H1 as (H1 & H1'), H2 as (H2 & H2'). right. apply andb_true_iff. split; [lia|apply (IH b c H1' H2')].
Qed.
Ltac older H := first [exact H | eapply at_least_trans; [|exact H]; vm_compute; reflexivity].

(** What each script needs. *)
Lemma maria_iff r : contains (reported r) (B"MariaDB") = true <-> exists a b, rl_tail r = a ++ B"MariaDB" ++ b.
Proof. unfold reported. apply contains_tail. Qed.
Lemma enough : forall d r p types system s, rl_nums r <> [] -> is_product d r p -> readable p (rl_nums r) -> has_script d s = true ->
  fine p (rl_nums r) (uses d (ScriptData (map Z.of_N (rl_nums r)) (reported r) system types) s) = true.
Proof.
  intros d r p types system s NE P R HS. set (f := ScriptData _ _ _ _). remember (rl_nums r) as v eqn:Ev.
  destruct d, p; cbn [is_product] in P; try contradiction; cbn [readable] in R; cbn [uses].
  - destruct s; cbn [sqlite_uses fine forallb has]; try reflexivity; unfold when; cbn [sd_nums sd_system f]; rewrite ?(at_sqlite37 v R), ?negb_involutive;
      repeat match goal with |- context [if ?b then _ else _] => destruct b eqn:? end; cbn [forallb has]; rewrite ?andb_true_iff; repeat split; try (older R).
    apply andb_true_iff in Heqb as (_ & T). exact T.
  - destruct s; cbn [postgres_uses fine forallb has]; try reflexivity; unfold when; cbn [sd_nums f];
      repeat match goal with |- context [if ?b then _ else _] => destruct b eqn:? end; cbn [forallb has]; rewrite ?andb_true_iff; repeat split; try (older R).
    change 11%Z with (Z.of_N 11) in Heqb. rewrite (at_one v 11 NE) in Heqb. exact Heqb.
  - assert (M : contains (reported r) (B"MariaDB") = false) by (destruct (contains (reported r) (B"MariaDB")) eqn:E; [exfalso; apply P, maria_iff, E|reflexivity]).
    assert (L : lower_than (map Z.of_N v) [8]%Z = negb (at_least v [8]%N)) by (apply (at_one v 8 NE)).
    assert (G : at_least v [5; 7; 6]%N = true) by (destruct R as [R|(R & _)]; older R).
    assert (C : at_least v [8]%N = true -> at_least v [8; 0; 16]%N = true) by (destruct R as [R|(_ & R)]; congruence).
    destruct s; cbn [mysql_uses fine forallb has]; try reflexivity; unfold when, greater_or_equal_to; cbn [sd_nums sd_version f]; rewrite ?L, ?M; cbn [orb];
      repeat match goal with |- context [if ?b then _ else _] => destruct b eqn:? end; cbn [forallb has]; rewrite ?andb_true_iff; repeat split; try (older G).
    + apply andb_true_iff in Heqb as (_ & T). rewrite negb_involutive in T. exact (C T).
    + apply negb_false_iff in Heqb. apply C in Heqb. older Heqb.
  - assert (M : contains (reported r) (B"MariaDB") = true) by (apply maria_iff, P).
    assert (G : at_least v [10; 2; 22]%N = true) by (destruct R as [R|(R & _)]; older R).
    destruct s; cbn [mysql_uses fine forallb has]; try reflexivity; unfold when; cbn [sd_nums sd_version f]; rewrite ?M; cbn [orb forallb];
      repeat match goal with |- context [if ?b then _ else _] => destruct b eqn:? end; cbn [forallb has]; rewrite ?andb_true_iff; repeat split; try (older G); try reflexivity.
    apply orb_true_iff. destruct R as [R|(R & Q)]; [left; exact R|right; rewrite R, Q; reflexivity].
  - destruct s; cbn [sqlserver_uses fine forallb has]; try reflexivity; unfold when;
      repeat match goal with |- context [if ?b then _ else _] => destruct b eqn:? end; cbn [forallb has]; rewrite ?andb_true_iff; repeat split; try (older R).
Qed.
Lemma requests_read d r kinds types system l : release_ok d r -> catalog_requests d (reported r) kinds types system = Ok l ->
  l = (let q := request d (ScriptData (map Z.of_N (rl_nums r)) (reported r) system types) in
       let on k l := if kind_included kinds k then flat_map q l else [] in
       on (B"EXTENSIONS") [Extensions] ++ on (B"ENUMS") [Enums] ++ on (B"DOMAINS") [Domains] ++ on (B"ROUTINES") [Routines]
        ++ on (B"VIEWS") [Views] ++ on (B"TABLES") [Tables; Columns; Constraints]
        ++ (if kind_included kinds (B"TABLES") || kind_included kinds (B"VIEWS") then flat_map q [Indexes; Triggers] else [])).
Proof.
  intros O E. unfold catalog_requests in E. destruct (version_nums d (reported r)) as [nums| |] eqn:V; cbn [bindr] in E; try discriminate.
  rewrite (C89_never_wrong d r nums O V) in E. injection E as <-. reflexivity.
Qed.

(** Missing: the versions that are not [readable].  The scripts tell Postgres before 11, MySQL before 8 and SQLite
    before 3.37 from the later ones, and yet use what came with Postgres 12, MySQL 8.0.16 and SQLite 3.33. *)
Theorem C118_partial : forall d r p kinds types system l, release_ok d r -> is_product d r p -> readable p (rl_nums r) ->
  catalog_requests d (reported r) kinds types system = Ok l -> answered p (rl_nums r) l.
Proof.
  intros d r p kinds types system l O P R E. apply (requests_read _ _ _ _ _ _ O) in E. subst l. cbv zeta.
  rewrite !answered_app, !answered_if, !answered_flat. repeat split; intros _ s _ HS; apply (enough d r p types system s (proj1 O) P R HS).
Qed.
(** Everything is read from exactly these versions. *)
Theorem C118_exact : forall d r p kinds types system l, release_ok d r -> is_product d r p ->
  (kinds = [] \/ In (B"TABLES") kinds) -> (types = [] \/ In (B"CHECK") types) ->
  catalog_requests d (reported r) kinds types system = Ok l -> (answered p (rl_nums r) l <-> readable p (rl_nums r)).
Proof.
  intros d r p kinds types system l O P K T E. split; [|intros R; exact (C118_partial d r p kinds types system l O P R E)].
  apply (requests_read _ _ _ _ _ _ O) in E. subst l. cbv zeta. rewrite !answered_app, !answered_if, !answered_flat.
  assert (KT : kind_included kinds (B"TABLES") = true) by (destruct K as [->|K]; [reflexivity|]; unfold kind_included; destruct kinds; [reflexivity|apply bmem_In; exact K]).
  intros (_ & _ & _ & _ & _ & A & I). specialize (A KT). rewrite KT in I. specialize (I eq_refl).
  set (f := ScriptData _ _ _ _) in *. remember (rl_nums r) as v eqn:Ev.
  assert (NE : v <> []) by (rewrite Ev; exact (proj1 O)).
  pose proof (A Tables (or_introl eq_refl)) as At. pose proof (A Columns (or_intror (or_introl eq_refl))) as Ac. pose proof (A Constraints (or_intror (or_intror (or_introl eq_refl)))) as Ak.
  pose proof (I Indexes (or_introl eq_refl)) as Ai. clear A I.
  assert (TC : include_type f (B"CHECK") = true) by (unfold include_type; cbn [sd_types f]; destruct T as [->|T]; [reflexivity|]; destruct types; [reflexivity|apply bmem_In; exact T]).
  destruct d, p; cbn [is_product] in P; try contradiction; cbn [readable uses has_script] in *.
  - specialize (Ac eq_refl). cbn [sqlite_uses fine forallb has] in Ac. apply andb_true_iff in Ac as (Ac & _). exact Ac.
  - specialize (Ac eq_refl). cbn [postgres_uses fine forallb has] in Ac. apply andb_true_iff in Ac as (_ & Ac). apply andb_true_iff in Ac as (Ac & _). exact Ac.
  - specialize (Ac eq_refl). specialize (Ak eq_refl). cbn [mysql_uses fine forallb has] in Ac, Ak. rewrite TC in Ak. unfold greater_or_equal_to in Ak. cbn [sd_nums f andb] in Ak.
    change 8%Z with (Z.of_N 8) in Ak. rewrite (at_one v 8 NE), negb_involutive in Ak. rewrite andb_true_r in Ac. destruct (at_least v [8]%N) eqn:L; [left|right; split; [exact Ac|reflexivity]].
    cbn [when forallb has] in Ak. rewrite andb_true_r in Ak. exact Ak.
  - specialize (Ac eq_refl). specialize (Ak eq_refl). cbn [mysql_uses fine forallb has] in Ac, Ak. rewrite TC in Ak. unfold greater_or_equal_to in Ak. cbn [sd_nums f andb] in Ak.
    change 8%Z with (Z.of_N 8) in Ak. rewrite (at_one v 8 NE), negb_involutive in Ak. rewrite andb_true_r in Ac.
    assert (L : at_least v [8]%N = true) by (older Ac). rewrite L in Ak. cbn [when forallb has] in Ak. rewrite andb_true_r in Ak. apply orb_true_iff in Ak as [H|H]; [left; exact H|right].
    apply andb_true_iff in H as (H & H'). apply negb_true_iff in H'. split; assumption.
  - specialize (Ai eq_refl). cbn [sqlserver_uses fine forallb has] in Ai. rewrite andb_true_r in Ai. exact Ai.
Qed.
(** Servers that the scripts mean to support and that cannot be read: SQLite 3.31 and 3.7, Postgres 9.6, 10 and 11, MySQL
    8.0.11, MariaDB 10.1. *)
Theorem C118_refuted : ~ C118_full.
Proof.
  intros H. assert (O : release_ok Postgres (Release [11; 22]%N [])) by (split; [discriminate|split; [repeat constructor|exact Logic.I]]).
  pose proof (H Postgres (Release [11; 22]%N []) PostgresServer [] [] false _ O Logic.I eq_refl) as A. specialize (A Columns [AttIdentity; AttGenerated] AttGenerated).
  assert (E : has PostgresServer [11; 22]%N AttGenerated = true) by (apply A; vm_compute; tauto). vm_compute in E. discriminate E.
Qed.
Theorem C118_versions_refuted : forall d p v, In (d, p, v) [(SQLite, SQLiteLib, [3; 31; 1]); (Postgres, PostgresServer, [9; 6; 24]); (Postgres, PostgresServer, [10; 23]);
    (Postgres, PostgresServer, [11; 22]); (MySQL, MySQLServer, [8; 0; 11]); (MySQL, MySQLServer, [5; 6; 51])]%N ->
  exists l, catalog_requests d (reported (Release v [])) [] [] false = Ok l /\ ~ answered p v l.
Proof.
  assert (G : forall d p v, release_ok d (Release v []) -> is_product d (Release v []) p -> ~ readable p v -> exists l, catalog_requests d (reported (Release v [])) [] [] false = Ok l /\ ~ answered p v l).
  { intros d p v O P R. assert (V : version_nums d (reported (Release v [])) = Ok (map Z.of_N v)) by (apply (proj1 (C89_partial d (Release v []) O)); left; reflexivity).
    destruct (catalog_requests d (reported (Release v [])) [] [] false) as [l| |] eqn:E; [|unfold catalog_requests in E; rewrite V in E; discriminate E..].
    exists l. split; [reflexivity|]. intros A. apply R. apply (C118_exact d (Release v []) p [] [] false l O P (or_introl eq_refl) (or_introl eq_refl) E), A. }
  intros d p v I. assert (N : forall t, ~ exists a b, (@nil ascii) = a ++ (t :: B"ariaDB") ++ b) by (intros t (a & b & Q); destruct a; discriminate Q).
  repeat (destruct I as [I|I]; [injection I as <- <- <-; apply G; [split; [discriminate|split; [repeat constructor|cbn [rl_tail]; exact Logic.I || reflexivity]]
    |cbn [is_product rl_tail]; first [exact Logic.I|exact (N "M"%char)]|vm_compute; intuition discriminate]|]). destruct I.
Qed.
(** A server whose version is not read is not asked anything (C89). *)
Theorem C118_unread : forall d r kinds types system, release_ok d r -> ~ clear_tail d r -> catalog_requests d (reported r) kinds types system = Err.
Proof. intros d r kinds types system O N. unfold catalog_requests. rewrite (proj2 (C89_partial d r O) N). reflexivity. Qed.

(** Routines alone are read from every Postgres that has extensions: here the distinction is right. *)
Theorem C118_routines : forall r types system l, release_ok Postgres r -> at_least (rl_nums r) [9; 1]%N = true ->
  catalog_requests Postgres (reported r) [B"ROUTINES"] types system = Ok l -> answered PostgresServer (rl_nums r) l /\ l <> [].
Proof.
  intros r types system l O V E. apply (requests_read _ _ _ _ _ _ O) in E. subst l. split; [|discriminate]. cbv zeta.
  rewrite !answered_app, !answered_if, !answered_flat. repeat split; intros K; try (vm_compute in K; discriminate K).
  intros s [<-|[]] _. cbn [uses postgres_uses sd_nums fine]. change 11%Z with (Z.of_N 11). rewrite (at_one _ 11 (proj1 O)).
  destruct (at_least (rl_nums r) [11]%N) eqn:L; unfold fine; cbn [negb forallb has]; rewrite V, L; reflexivity.
Qed.
(** Subsets need the tables with their primary and foreign keys only (subsetter.go:50-53); no check of MySQL is asked for. *)
Theorem C118_subset : forall r l, release_ok MySQL r -> is_product MySQL r MySQLServer ->
  catalog_requests MySQL (reported r) [B"TABLES"] [B"PRIMARY KEY"; B"FOREIGN KEY"] false = Ok l ->
  (answered MySQLServer (rl_nums r) l <-> at_least (rl_nums r) [5; 7; 6]%N = true /\ (at_least (rl_nums r) [8]%N = true -> at_least (rl_nums r) [8; 0; 13]%N = true)).
Proof.
  intros r l O P E. apply (requests_read _ _ _ _ _ _ O) in E. subst l. cbv zeta. rewrite !answered_app, !answered_if, !answered_flat.
  assert (M : contains (reported r) (B"MariaDB") = false) by (destruct (contains (reported r) (B"MariaDB")) eqn:Q; [exfalso; apply P, maria_iff, Q|reflexivity]).
  pose proof (at_one (rl_nums r) 8 (proj1 O)) as L. change (Z.of_N 8) with 8%Z in L.
  assert (KT : kind_included [B"TABLES"] (B"TABLES") = true) by reflexivity.
  split.
  - intros (_ & _ & _ & _ & _ & A & I). specialize (A KT Columns (or_intror (or_introl eq_refl)) eq_refl). cbn [uses mysql_uses fine forallb has] in A. rewrite andb_true_r in A.
    rewrite KT in I. specialize (I eq_refl Indexes (or_introl eq_refl) eq_refl). cbn [uses mysql_uses sd_nums sd_version] in I. rewrite M, L in I. cbn [orb] in I.
    split; [exact A|]. intros G. rewrite G in I. cbn [negb fine forallb has] in I. rewrite andb_true_r in I. exact I.
  - intros (A & G). repeat split; intros K; try (vm_compute in K; discriminate K).
    + intros s [<-|[<-|[<-|[]]]] _; cbn [uses mysql_uses fine forallb has]; [reflexivity|rewrite A; reflexivity|reflexivity].
    + intros s [<-|[<-|[]]] _; cbn [uses mysql_uses sd_nums sd_version fine]; [|reflexivity]. rewrite M, L. cbn [orb].
      destruct (at_least (rl_nums r) [8]%N); unfold fine; cbn [negb forallb has]; [rewrite (G eq_refl); reflexivity|reflexivity].
Qed.

(** wipe does not ask for the version and takes every server for the latest. *)
Ltac listed V := unfold fine; match goal with |- forallb _ ?l = true => let l' := eval vm_compute in l in change l with l' end; cbn [forallb has]; rewrite ?andb_true_iff; repeat split; older V.
Theorem C118_wipe : forall d r p, is_product d r p -> (answered p (rl_nums r) (wipe_requests d) <-> wipeable p (rl_nums r)).
Proof.
  intros d r p P. unfold wipe_requests. remember (rl_nums r) as v.
  destruct d, p; cbn [is_product] in P; try contradiction; cbn [wipeable]; cbv zeta; rewrite ?app_nil_r, ?app_nil_l, ?answered_app, ?answered_request, ?answered_flat; cbn [uses has_script app];
    (split; [intros H; decompose [and] H; clear H; repeat match goal with X : true = true -> _ |- _ => specialize (X eq_refl) end|intros V]).
  - cbn [sqlite_uses sd_nums sd_system lower_than negb andb when fine forallb has] in *. rewrite !andb_true_iff in *. tauto.
  - repeat split; intros _; listed V.
  - cbn [postgres_uses sd_nums lower_than fine forallb has] in *. rewrite !andb_true_iff in *. tauto.
  - repeat split; try intros s [<-|[<-|[<-|[]]]]; try intros _; listed V.
  - cbn [mysql_uses fine forallb has] in *. rewrite !andb_true_iff in *. tauto.
  - repeat split; intros _; listed V.
  - cbn [mysql_uses fine forallb has] in *. rewrite !andb_true_iff in *. tauto.
  - repeat split; intros _; listed V.
  - cbn [sqlserver_uses fine forallb has] in *. rewrite !andb_true_iff in *. tauto.
  - repeat split; intros _; listed V.
Qed.
(** SQLite 3.36 can be dumped and cannot be wiped; Postgres 10 cannot be wiped although its routines can be dumped. *)
Theorem C118_wipe_refuted :
  (exists l, catalog_requests SQLite (B"3.36.0") [] [] false = Ok l /\ answered SQLiteLib [3; 36; 0]%N l) /\ ~ answered SQLiteLib [3; 36; 0]%N (wipe_requests SQLite)
  /\ (exists l, catalog_requests Postgres (B"10.23") [B"ROUTINES"] [] false = Ok l /\ answered PostgresServer [10; 23]%N l) /\ ~ answered PostgresServer [10; 23]%N (wipe_requests Postgres).
Proof.
  set (r := Release [3; 36; 0]%N []). set (q := Release [10; 23]%N []).
  assert (O : release_ok SQLite r) by (split; [discriminate|split; [repeat constructor|reflexivity]]).
  assert (Q : release_ok Postgres q) by (split; [discriminate|split; [repeat constructor|exact Logic.I]]).
  split; [|split; [|split]].
  - eexists. split; [reflexivity|]. eapply (C118_partial SQLite r SQLiteLib [] [] false _ O Logic.I); reflexivity.
  - intros A. apply (proj1 (C118_wipe SQLite r SQLiteLib Logic.I)) in A. vm_compute in A. discriminate A.
  - eexists. split; [reflexivity|]. apply (fun V E => proj1 (C118_routines q [] false _ Q V E)); reflexivity.
  - intros A. apply (proj1 (C118_wipe Postgres q PostgresServer Logic.I)) in A. vm_compute in A. discriminate A.
Qed.

(** Every script that is sent is there, and without a filter every script is sent. *)
Theorem C118_files : forall d v kinds types system l, d <> Other -> catalog_requests d v kinds types system = Ok l ->
  (forall s fs, In (s, fs) l -> In s (files d)) /\ (kinds = [] -> forall s, In s (files d) -> exists fs, In (s, fs) l)
  /\ (forall s fs, In (s, fs) (wipe_requests d) -> In s (files d)).
Proof.
  intros d v kinds types system l D E. assert (H : forall f s x fs, In (x, fs) (request d f s) -> In x (files d)).
  { intros f s x fs. unfold request. destruct (has_script d s) eqn:Q; [|intros []]. intros [X|[]]. injection X as <- _. destruct d, s; try discriminate Q; try congruence; cbn; tauto. }
  assert (G : forall f m x fs, In (x, fs) (flat_map (request d f) m) -> In x (files d)).
  { intros f m x fs I. apply in_flat_map in I as (s & _ & I). exact (H f s x fs I). }
  unfold catalog_requests in E. destruct (version_nums d v) as [nums| |]; cbn [bindr] in E; try discriminate E.
  assert (OK : forall A (a b : A), Ok a = Ok b -> a = b) by (intros A a b X; injection X as X; exact X). apply OK in E. subst l. split; [|split].
  - intros s fs I. cbv zeta in I. repeat (apply in_app_or in I as [I|I]); match type of I with In _ (if ?b then _ else _) => destruct b; [exact (G _ _ _ _ I)|destruct I] end.
  - intros -> s I. cbn [kind_included orb flat_map]. set (f := ScriptData nums v system types). exists (uses d f s).
    destruct d; try congruence; cbn [files In] in I; repeat destruct I as [<-|I]; try contradiction; cbn [request has_script app In]; repeat first [left; reflexivity|right].
  - intros s fs I. unfold wipe_requests in I. destruct d; try congruence; repeat (apply in_app_or in I as [I|I]); first [exact (H _ _ _ _ I)|exact (G _ _ _ _ I)|destruct I].
Qed.

(** A server of each product that is read. *)
Example C118_ex :
  readable SQLiteLib [3; 41; 2]%N /\ readable SQLiteLib [3; 35; 4]%N /\ readable PostgresServer [15; 2]%N /\ readable MySQLServer [8; 0; 32]%N /\ readable MySQLServer [5; 7; 41]%N
  /\ readable MariaDB [10; 11; 2]%N /\ readable MariaDB [10; 2; 44]%N /\ readable MSSQL [15; 0; 2000; 5]%N
  /\ catalog_requests MySQL (B"8.0.32") [B"TABLES"] [] false = Ok [(Tables, []); (Columns, [GenerationExpr]); (Constraints, [CheckConstraints]); (Indexes, [StatExpression]); (Triggers, [])]
  /\ catalog_requests MySQL (B"10.11.2-MariaDB-1:10.11.2+maria~ubu2204") [B"VIEWS"] [] false = Ok [(Views, []); (Indexes, []); (Triggers, [])]
  /\ catalog_requests SQLite (B"3.36.0") [B"TABLES"] [] false = Ok [(Tables, [SqliteSchema]); (Columns, [SqliteSchema; PragmaFunctions; TableXinfo]);
       (Constraints, [WordFalse; SqliteSchema; PragmaFunctions]); (Indexes, [SqliteSchema; PragmaFunctions]); (Triggers, [SqliteSchema])].
Proof. vm_compute. intuition congruence. Qed.

Print Assumptions C118_partial. Print Assumptions C118_exact.
Print Assumptions C118_files. Print Assumptions C118_refuted. Print Assumptions C118_versions_refuted.
Print Assumptions C118_unread. Print Assumptions C118_routines. Print Assumptions C118_subset. Print Assumptions C118_wipe. Print Assumptions C118_wipe_refuted.
