(** C122: a catalog that was read from a database is never a part of it: an answer that breaks off is an error. *)
From Verif Require Import GoStr GoStrFacts ModelDdl ModelVersion ModelCsv ModelReading SpecReading.

(** The whole claim. *)
Definition C122_statement : Prop := forall d types scan db c, read_catalog d types scan db = Ok c ->
  forall q, asked d types q -> answered q (db q) /\ faithful d scan db c q.

Lemma mapr_said (scan : query -> row -> result row) (q : query) : forall rows l, mapr (scan q) rows = Ok l <-> Forall2 (fun r x => scan q r = Ok x) rows l.
Proof.
  induction rows as [|r rows IH]; intros l; cbn [mapr].
  - split; [intros E; injection E as <-; constructor|intros F; inversion F; reflexivity].
  - split.
    + destruct (scan q r) as [x| |] eqn:S; cbn [bindr]; try discriminate. destruct (mapr (scan q) rows) as [l'| |] eqn:M; cbn [bindr]; try discriminate.
      intros E. injection E as <-. constructor; [exact S|]. apply IH. reflexivity.
    + intros F. inversion F as [|r' x rows' l' S F']; subst. rewrite S. cbn [bindr]. apply IH in F'. rewrite F'. reflexivity.
Qed.
Definition listed (q : query) : Prop := ~ single q.
Lemma listed_cases q : single q \/ listed q.
Proof. unfold listed, single. destruct q; cbn; intuition discriminate. Qed.
(** ** The parts *)
Lemma version_read d db v : get_version d db = Ok v <-> d <> Other /\ an_refused (db QVersion) = false /\ told (db QVersion) v.
Proof.
  unfold get_version, told. cbv zeta. destruct (db QVersion) as [rf rows br]. cbn [an_refused an_rows].
  assert (X : (if rf then Err else match rows with [] => Ok [] | r :: _ => text_of r end) = Ok v <->
    rf = false /\ (rows = [] /\ v = [] \/ exists rest, rows = [Some v] :: rest)).
  { destruct rf; [split; [discriminate|intros (Y & _); discriminate Y]|]. destruct rows as [|r rows].
    - split; [intros E; injection E as <-; auto|]. intros (_ & [(_ & ->)|(rest & Y)]); [reflexivity|discriminate Y].
    - split.
      + intros E. split; [reflexivity|]. right. exists rows. unfold text_of in E. destruct r as [|[x|] [|y r]]; try discriminate E. injection E as <-. reflexivity.
      + intros (_ & [(Y & _)|(rest & Y)]); [discriminate Y|]. injection Y as -> _. reflexivity. }
  destruct d; try (rewrite X; split; [intros Y; split; [discriminate|exact Y]|intros (_ & Y); exact Y]).
  split; [discriminate|intros (N & _); congruence].
Qed.
Lemma name_read d db q s : d <> SQLite -> (get_name d db q = Ok s <-> d <> Other /\ an_refused (db q) = false /\ (an_broke (db q) = false \/ an_rows (db q) <> []) /\ told (db q) s).
Proof.
  intros NS. unfold get_name, told, close_rows. cbv zeta. destruct (db q) as [rf rows br]. cbn [an_refused an_rows an_broke].
  assert (X : (if rf then Err else match rows with [] => bindr (if br then Err else Ok tt) (fun _ => Ok []) | r :: _ => text_of r end) = Ok s <->
    rf = false /\ (br = false \/ rows <> []) /\ (rows = [] /\ s = [] \/ exists rest, rows = [Some s] :: rest)).
  { destruct rf; [split; [discriminate|intros (Y & _); discriminate Y]|]. destruct rows as [|r rows].
    - destruct br; cbn [bindr].
      + split; [discriminate|]. intros (_ & [Y|Y] & _); [discriminate Y|contradiction].
      + split; [intros E; injection E as <-; auto 6|]. intros (_ & _ & [(_ & ->)|(rest & Y)]); [reflexivity|discriminate Y].
    - split.
      + intros E. split; [reflexivity|]. split; [right; discriminate|]. right. exists rows. unfold text_of in E. destruct r as [|[x|] [|y r]]; try discriminate E. injection E as <-. reflexivity.
      + intros (_ & _ & [(Y & _)|(rest & Y)]); [discriminate Y|]. injection Y as -> _. reflexivity. }
  destruct d; try contradiction; try (rewrite X; split; [intros Y; split; [discriminate|exact Y]|intros (_ & Y); exact Y]).
  split; [discriminate|intros (N & _); congruence].
Qed.
Lemma rows_read scan db q l : read_rows scan db q = Ok l <-> an_refused (db q) = false /\ (an_broke (db q) = false \/ q = QTriggers) /\ said scan q (db q) l.
Proof.
  unfold read_rows, said, close_rows. cbv zeta. destruct (an_refused (db q)); [split; [discriminate|intros (X & _); discriminate X]|].
  rewrite <- mapr_said. destruct (mapr (scan q) (an_rows (db q))) as [l'| |]; cbn [bindr].
  - destruct (an_broke (db q)); cbn [bindr].
    + assert (T : q = QTriggers \/ q <> QTriggers) by (destruct q; (left; reflexivity) || (right; discriminate)). destruct T as [->|N].
      * split; [intros E; auto|intros (_ & _ & E); exact E].
      * split; [intros E; destruct q; try discriminate E; contradiction|intros (_ & [X|X] & _); [discriminate X|contradiction]].
    + split; [intros E; split; [reflexivity|split; [left; reflexivity|destruct q; exact E]]|intros (_ & _ & E); destruct q; exact E].
  - split; [discriminate|intros (_ & _ & X); discriminate X].
  - split; [discriminate|intros (_ & _ & X); discriminate X].
Qed.
Lemma gather_in {A} (get : query -> result A) : forall l r, gather get l = Ok r -> forall q, In q l -> exists a, get q = Ok a /\ In (q, a) r.
Proof.
  induction l as [|q0 l IH]; intros r; cbn [gather]; [intros _ q []|].
  destruct (get q0) as [a| |] eqn:G; cbn [bindr]; try discriminate. destruct (gather get l) as [r'| |]; cbn [bindr]; try discriminate. intros E. injection E as <-.
  intros q [->|I]; [exists a; split; [exact G|left; reflexivity]|]. destruct (IH r' eq_refl q I) as (x & X & J). exists x. split; [exact X|right; exact J].
Qed.
Lemma gather_from {A} (get : query -> result A) : forall l r, gather get l = Ok r -> forall q a, In (q, a) r -> In q l /\ get q = Ok a.
Proof.
  induction l as [|q0 l IH]; intros r; cbn [gather]; [intros E; injection E as <-; intros q a []|].
  destruct (get q0) as [a0| |] eqn:G; cbn [bindr]; try discriminate. destruct (gather get l) as [r'| |]; cbn [bindr]; try discriminate. intros E. injection E as <-.
  intros q a [I|I]; [injection I as <- <-; split; [left; reflexivity|exact G]|]. destruct (IH r' eq_refl q a I) as (X & Y). split; [right; exact X|exact Y].
Qed.
Lemma gather_all {A} (get : query -> result A) : forall l, (forall q, In q l -> exists a, get q = Ok a) -> exists r, gather get l = Ok r.
Proof.
  induction l as [|q l IH]; intros H; cbn [gather]; [eexists; reflexivity|]. destruct (H q (or_introl eq_refl)) as (a & ->). cbn [bindr].
  destruct IH as (r & ->); [intros x I; apply H; right; exact I|]. cbn [bindr]. eexists. reflexivity.
Qed.
Lemma included_spec types t : included types t = true <-> types = [] \/ In t types.
Proof.
  unfold included. destruct types as [|t0 types]; [split; auto|]. unfold bmem. rewrite existsb_exists. split.
  - intros (x & I & E). apply beqb_eq in E. subst. auto.
  - intros [E|I]; [discriminate E|]. exists t. split; [exact I|apply beqb_eq; reflexivity].
Qed.
Lemma stages_spec types q : In q (stages types) <-> exists t, belongs t q /\ (types = [] \/ In t types).
Proof.
  unfold stages. cbv zeta. rewrite !in_app_iff. split.
  - assert (X : forall t l, In q (if included types t then l else []) -> In q l /\ (types = [] \/ In t types)).
    { intros t l I. destruct (included types t) eqn:E; [|destruct I]. apply included_spec in E. auto. }
    intros [I|[I|[I|[I|[I|[I|I]]]]]].
    1-6: apply X in I; destruct I as (I & T); eexists; (split; [|exact T]).
    1-5: destruct I as [<-|[]]; constructor.
    + apply b_tables. exact I.
    + destruct (included types (B"TABLES") || included types (B"VIEWS")) eqn:E; [|destruct I]. apply orb_true_iff in E.
      destruct E as [E|E]; apply included_spec in E; eexists; (split; [|exact E]); apply b_both; auto; cbn; auto.
  - intros (t & Bl & T). apply included_spec in T. destruct Bl as [| | | | |q I|t q J I]; try rewrite T; cbn [In]; auto 10.
    right. right. right. right. right. right. destruct J as [<-|[<-|[]]]; rewrite T; [|rewrite orb_true_r]; exact I.
Qed.
Lemma stage_listed types q : In q (stages types) -> listed q.
Proof. intros I S. apply stages_spec in I. destruct I as (t & Bl & _). destruct Bl as [| | | | |q I|t q J I]; cbn in S; try (intuition discriminate); destruct I as [<-|[<-|I]]; try (intuition discriminate); destruct I as [<-|[]]; intuition discriminate. Qed.
Lemma get_rows_has d scan db q l : listed q -> (get_rows d scan db q = Ok l <->
  (~ has d q /\ l = []) \/ (has d q /\ d <> Other /\ read_rows scan db q = Ok l)).
Proof.
  intros L. destruct q; try (exfalso; apply L; cbn; auto 10; fail); unfold get_rows, has; destruct d; (split; [intros E|intros [(N & ->)|(N & O & E)]]);
    try discriminate E; try congruence; try (exfalso; apply N; congruence); try (right; split; [congruence|split; [discriminate|exact E]]); try (right; split; [exact I|split; [discriminate|exact E]]);
    try (left; split; [congruence|congruence]); try (left; injection E as <-; split; [congruence|reflexivity]); try (exfalso; apply N; exact I).
Qed.

(** ** The claims *)
(** What is needed to read a catalog, and nothing more. *)
Definition noticed (q : query) (a : answer) : Prop :=
  an_refused a = false /\ (an_broke a = false \/ single q /\ an_rows a <> [] \/ q = QTriggers).
Lemma taken d types scan db c : read_catalog d types scan db = Ok c -> d <> Other /\
  exists v names l, get_version d db = Ok v /\ version_nums d v = Ok (rd_version c) /\ gather (get_name d db) [QDatabase; QSchema; QCollation] = Ok names /\
    gather (get_rows d scan db) (stages types) = Ok l /\ rd_names c = names /\ rd_rows c = l.
Proof.
  unfold read_catalog. destruct (get_version d db) as [v| |] eqn:V; cbn [bindr]; try discriminate. destruct (version_nums d v) as [ns| |] eqn:N; cbn [bindr]; try discriminate.
  destruct (gather (get_name d db) _) as [names| |] eqn:G; cbn [bindr]; try discriminate. destruct (gather (get_rows d scan db) _) as [l| |] eqn:R; cbn [bindr]; try discriminate.
  intros E. injection E as <-. split; [apply version_read in V; tauto|]. exists v, names, l. auto 10.
Qed.
Lemma no_number d ns : version_nums d [] <> Ok ns.
Proof. destruct d; discriminate. Qed.
Lemma version_there d v ns a : told a v -> version_nums d v = Ok ns -> an_rows a <> [].
Proof. intros [(_ & ->)|(rest & ->)] N; [exfalso; exact (no_number _ _ N)|discriminate]. Qed.
Lemma read_back d types scan db c : read_catalog d types scan db = Ok c -> forall q, asked d types q -> noticed q (db q) /\ faithful d scan db c q.
Proof.
  intros E q (Hs & A). destruct (taken _ _ _ _ _ E) as (O & v & names & l & V & N & G & R & En & El). clear E.
  destruct A as [S|St].
  - assert (Nm : In q [QDatabase; QSchema; QCollation] -> noticed q (db q) /\ faithful d scan db c q).
    { intros I. assert (NS : d <> SQLite) by (destruct I as [<-|[<-|[<-|[]]]]; exact Hs). destruct (gather_in _ _ _ G q I) as (s & X & J). apply (name_read d db q s NS) in X.
      destruct X as (_ & Rf & Br & T). split; [split; [exact Rf|destruct Br; auto]|]. unfold faithful. rewrite En. destruct I as [<-|[<-|[<-|[]]]]; exists s; auto. }
    destruct S as [<-|I]; [|apply Nm; exact I]. apply version_read in V. destruct V as (_ & Rf & T). split; [|exists v; auto]. split; [exact Rf|]. right. left.
    split; [left; reflexivity|]. eapply version_there; eassumption.
  - apply stages_spec in St. pose proof (stage_listed _ _ St) as L. destruct (gather_in _ _ _ R q St) as (rows & X & J). apply (get_rows_has _ _ _ _ _ L) in X.
    destruct X as [(X & _)|(_ & _ & X)]; [contradiction|]. apply rows_read in X. destruct X as (Rf & Br & Sd). split; [split; [exact Rf|destruct Br; auto]|].
    unfold faithful. rewrite El. destruct q; try (exfalso; apply L; cbn; auto 10; fail); exists rows; auto.
Qed.
(** Everything but the triggers. *)
Theorem C122_partial d types scan db c : read_catalog d types scan db = Ok c -> forall q, asked d types q -> q <> QTriggers -> answered q (db q) /\ faithful d scan db c q.
Proof.
  intros E q A N. destruct (read_back _ _ _ _ _ E q A) as ((Rf & Br) & F). split; [|exact F]. split; [exact Rf|]. destruct Br as [X|[X|X]]; auto. contradiction.
Qed.
(** Of the triggers, those that had come. *)
Theorem C122_triggers d types scan db c : read_catalog d types scan db = Ok c -> asked d types QTriggers ->
  an_refused (db QTriggers) = false /\ exists l, In (QTriggers, l) (rd_rows c) /\ said scan QTriggers (db QTriggers) l.
Proof. intros E A. destruct (read_back _ _ _ _ _ E _ A) as ((Rf & _) & F). split; [exact Rf|exact F]. Qed.
(** Nothing that was not asked for. *)
Theorem C122_nothing_else d types scan db c q l : read_catalog d types scan db = Ok c -> In (q, l) (rd_rows c) -> l <> [] -> asked d types q.
Proof.
  intros E I N. destruct (taken _ _ _ _ _ E) as (_ & v & names & l' & _ & _ & _ & R & _ & El). rewrite El in I. destruct (gather_from _ _ _ R q l I) as (St & X).
  pose proof (stage_listed _ _ St) as L. apply (get_rows_has _ _ _ _ _ L) in X. destruct X as [(_ & ->)|(Hs & _ & _)]; [contradiction|].
  split; [exact Hs|]. right. apply stages_spec. exact St.
Qed.
(** When a catalog is read at all. *)
Theorem C122_exact d types scan db : (exists c, read_catalog d types scan db = Ok c) <->
  d <> Other /\ forall q, asked d types q -> noticed q (db q) /\ legible d scan q (db q).
Proof.
  split.
  - intros (c & E). split; [apply (taken _ _ _ _ _ E)|]. intros q A. destruct (read_back _ _ _ _ _ E q A) as (Nt & F). split; [exact Nt|].
    unfold faithful in F. unfold legible. destruct q; try (destruct F as (x & _ & F); exists x; exact F). destruct F as (v & T & N). exists v, (rd_version c). auto.
  - intros (O & H).
    assert (Sg : forall q, In q [QDatabase; QSchema; QCollation] -> exists s, get_name d db q = Ok s).
    { intros q I. assert (D : d = SQLite \/ d <> SQLite) by (destruct d; (left; reflexivity) || (right; discriminate)). destruct D as [->|NS]; [exists []; reflexivity|].
      destruct (H q) as ((Rf & Br) & Lg); [split; [destruct I as [<-|[<-|[<-|[]]]]; exact NS|left; right; exact I]|].
      assert (T : exists s, told (db q) s) by (destruct I as [<-|[<-|[<-|[]]]]; exact Lg). destruct T as (s & T). exists s. apply name_read; [exact NS|]. repeat split; auto.
      destruct Br as [X|[(_ & X)|X]]; auto. subst q. cbn in I. intuition discriminate. }
    assert (Ls : forall q, In q (stages types) -> exists l, get_rows d scan db q = Ok l).
    { intros q I. pose proof (stage_listed _ _ I) as L. assert (D : has d q \/ ~ has d q) by (destruct q, d; cbn; (left; congruence) || (right; congruence) || (left; exact Logic.I)).
      destruct D as [Hs|Hn]; [|exists []; apply get_rows_has; [exact L|auto]].
      destruct (H q) as ((Rf & Br) & Lg); [split; [exact Hs|right; apply stages_spec; exact I]|].
      assert (T : exists l, said scan q (db q) l) by (destruct q; try exact Lg; exfalso; apply L; cbn; auto 10). destruct T as (l & T).
      exists l. apply get_rows_has; [exact L|]. right. split; [exact Hs|]. split; [exact O|]. apply rows_read. split; [exact Rf|]. split; [|exact T]. destruct Br as [X|[(X & _)|X]]; auto. contradiction. }
    destruct (H QVersion) as ((Rf & _) & v & ns & T & N); [split; [exact Logic.I|left; left; reflexivity]|].
    assert (V : get_version d db = Ok v) by (apply version_read; auto). destruct (gather_all _ _ Sg) as (names & G). destruct (gather_all _ _ Ls) as (l & R).
    exists (Reading ns names l). unfold read_catalog. rewrite V. cbn [bindr]. rewrite N. cbn [bindr]. rewrite G. cbn [bindr]. rewrite R. reflexivity.
Qed.
(** A connection without a database (MySQL), or whose search path has no schema (Postgres), says NULL: there is no catalog. *)
Theorem C122_null d types scan db q rest : In q [QDatabase; QSchema; QCollation] -> d <> SQLite -> an_rows (db q) = [None] :: rest -> forall c, read_catalog d types scan db <> Ok c.
Proof.
  intros I NS N c E. destruct (taken _ _ _ _ _ E) as (_ & v & names & l & _ & _ & G & _). destruct (gather_in _ _ _ G q I) as (s & X & _). apply (name_read d db q s NS) in X.
  destruct X as (_ & _ & _ & [(Y & _)|(r & Y)]); rewrite N in Y; discriminate Y.
Qed.

(** ** Examples *)
Definition whole (rows : list row) : answer := Answer false rows false.
Definition a_database (triggers : answer) (q : query) : answer :=
  match q with
  | QVersion => whole [[Some (B"15.2 (Debian 15.2-1)")]]
  | QDatabase => whole [[Some (B"sakila")]]
  | QSchema => Answer false [[Some (B"public")]] true
  | QCollation => whole [[Some (B"C")]]
  | QTables => whole [[Some (B"actor")]; [Some (B"film")]]
  | QTriggers => triggers
  | _ => whole []
  end.
Definition as_it_is (q : query) (r : row) : result row := Ok r.
Definition two_triggers : list row := [[Some (B"actor"); Some (B"tr1")]; [Some (B"film"); Some (B"tr2")]].
Theorem C122_refuted : ~ C122_statement /\
  exists c, read_catalog Postgres [B"TABLES"] as_it_is (a_database (Answer false (firstn 1 two_triggers) true)) = Ok c /\ In (QTriggers, [[Some (B"actor"); Some (B"tr1")]]) (rd_rows c).
Proof.
  assert (E : exists c, read_catalog Postgres [B"TABLES"] as_it_is (a_database (Answer false (firstn 1 two_triggers) true)) = Ok c /\ In (QTriggers, [[Some (B"actor"); Some (B"tr1")]]) (rd_rows c)).
  { eexists. split; [vm_compute; reflexivity|]. vm_compute. auto 10. }
  split; [|exact E]. intros H. destruct E as (c & E & _). destruct (H _ _ _ _ _ E QTriggers) as ((_ & [X|(X & _)]) & _).
  - split; [exact Logic.I|]. right. exists (B"TABLES"). split; [apply b_both; cbn; auto|right; left; reflexivity].
  - discriminate X.
  - cbn in X. intuition discriminate.
Qed.
Example C122_example : exists c, read_catalog Postgres [] as_it_is (a_database (whole two_triggers)) = Ok c /\
  rd_version c = [15; 2]%Z /\ rd_names c = [(QDatabase, B"sakila"); (QSchema, B"public"); (QCollation, B"C")] /\ In (QTriggers, two_triggers) (rd_rows c).
Proof. eexists. split; [vm_compute; reflexivity|]. split; [reflexivity|]. split; [reflexivity|]. cbn. auto 20. Qed.
Example C122_example_broken : read_catalog Postgres [] as_it_is (fun q => match q with QTables => Answer false [[Some (B"actor")]] true | _ => a_database (whole two_triggers) q end) = Err.
Proof. vm_compute. reflexivity. Qed.
Example C122_example_null : read_catalog MySQL [] as_it_is (fun q => match q with QVersion => whole [[Some (B"8.0.33")]] | QDatabase => whole [[None]] | _ => a_database (whole two_triggers) q end) = Err.
Proof. vm_compute. reflexivity. Qed.

Print Assumptions C122_partial.
Print Assumptions C122_exact.
Print Assumptions C122_refuted.
Print Assumptions C122_nothing_else.
Print Assumptions C122_null.
