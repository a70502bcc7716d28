(** C94.  When a migration fails, the user is shown what the database said
    about it: the line of the script that the error is on, the text of the
    error, its detail and its hint, or all the messages of the batch, and the
    program does not crash.  Model: ModelAnnotate.v; specification:
    SpecAnnotate.v. *)
From Coq Require Import ZifyBool ZifyNat.
From Verif Require Import GoStr GoStrFacts ModelVersion ModelAnnotate SpecAnnotate AnnotateFacts.

(** What lib/pq makes of the report of PostgreSQL: the fields are strings, the
    position in decimal, or empty when there is none. *)
Definition pq_of (r : pgreport) (e : pqerr) : Prop :=
  pq_text e = r_text r /\ pq_detail e = r_detail r /\ pq_hint e = r_hint r /\
  match r_position r with None => pq_position e = [] | Some p => writes (pq_position e) p end.
Definition ms_of (r : msreport) (e : mserr) : Prop :=
  ms_text e = m_text r /\ ms_line e = Z.of_nat (m_line r) /\ ms_all e = m_all r.
(** A text that fits into memory. *)
Definition fits (query : bytes) : Prop := (Z.of_nat (List.length query) < 2 ^ 63 - 1)%Z.

(** ** The property *)
Definition shows_postgres : Prop := forall query r e, fits query -> report_of query r -> pq_of r e ->
  exists s, annotate Postgres (PqErr e) query = Text s /\ to_show query r s.
Definition shows_sqlserver : Prop := forall query r e, ms_of r e ->
  exists s, annotate SQLServer (MsErr e) query = Text s /\ ms_to_show r s.

(** A script that ends too early, CREATE TABLE t ( and a line feed: "syntax
    error at end of input", at the position after the last character.  The
    program crashes. *)
Definition q_end : bytes := B"CREATE TABLE t (" ++ [LF].
Definition r_end : pgreport :=
  {| r_text := B"pq: syntax error at end of input"; r_position := Some 18; r_detail := []; r_hint := [] |}.
Definition e_end : pqerr :=
  {| pq_text := B"pq: syntax error at end of input"; pq_position := B"18"; pq_detail := []; pq_hint := [] |}.
Lemma e_end_of : pq_of r_end e_end.
Proof. repeat split. exists "1"%char, (B"8"). split; [reflexivity|]. intros _. discriminate. Qed.
Theorem C94_refuted :
  ~ shows_postgres /\
  fits q_end /\ report_of q_end r_end /\ pq_of r_end e_end /\ annotate Postgres (PqErr e_end) q_end = Crash.
Proof.
  assert (F : fits q_end) by reflexivity. assert (R : report_of q_end r_end) by (vm_compute; lia).
  assert (C : annotate Postgres (PqErr e_end) q_end = Crash) by (vm_compute; reflexivity).
  split; [|auto using e_end_of]. intros P. destruct (P q_end r_end e_end F R e_end_of) as (s & E & _). rewrite C in E. discriminate.
Qed.

(** A comment with letters that take two bytes: the error on line 2 is said to
    be on line 1. *)
Definition q_utf : bytes := B"-- " ++ concat (repeat [ascii_of_nat 195; ascii_of_nat 169] 8) ++ [LF] ++ B"SELEC 1;".
Definition r_utf : pgreport :=
  {| r_text := B"pq: syntax error at or near ""SELEC"""; r_position := Some 13; r_detail := []; r_hint := [] |}.
Definition e_utf : pqerr :=
  {| pq_text := B"pq: syntax error at or near ""SELEC"""; pq_position := B"13"; pq_detail := []; pq_hint := [] |}.
Lemma e_utf_of : pq_of r_utf e_utf.
Proof. repeat split. exists "1"%char, (B"3"). split; [reflexivity|]. intros _. discriminate. Qed.
Theorem C94_refuted_line :
  fits q_utf /\ report_of q_utf r_utf /\ pq_of r_utf e_utf /\ on_line q_utf 13 2 /\
  annotate Postgres (PqErr e_utf) q_utf = Text (B"line 1: pq: syntax error at or near ""SELEC""") /\
  forall s, annotate Postgres (PqErr e_utf) q_utf = Text s -> ~ to_show q_utf r_utf s.
Proof.
  assert (E : annotate Postgres (PqErr e_utf) q_utf = Text (B"line 1: pq: syntax error at or near ""SELEC""")) by (vm_compute; reflexivity).
  split; [reflexivity|]. split; [vm_compute; lia|]. split; [exact e_utf_of|]. split.
  { split; [|lia]. change (2 - 1) with (count_lf (before_char 13 q_utf)). apply count_lf_feeds. }
  split; [exact E|]. intros s Q (front & S & line & n & (L & G) & (W & c & r & -> & _) & ->). rewrite E in Q. injection Q as <-.
  apply feeds_count in L. change (count_lf (before_char 13 q_utf)) with 1 in L. assert (line = 2) as -> by lia.
  cbn in S. injection S as <- S.
  destruct r as [|c2 r]; [vm_compute in W; discriminate W|]. cbn in S. injection S as <- S. vm_compute in W. discriminate W.
Qed.

(** The detail quotes a value of the row: Key (rate)=(100%) already exists.
    It is read as a format. *)
Definition r_pct : pgreport :=
  {| r_text := B"pq: duplicate key"; r_position := None; r_detail := B"Key (rate)=(100%) already exists."; r_hint := [] |}.
Definition e_pct : pqerr :=
  {| pq_text := B"pq: duplicate key"; pq_position := []; pq_detail := B"Key (rate)=(100%) already exists."; pq_hint := [] |}.
Theorem C94_refuted_percent :
  fits (B"INSERT INTO r VALUES ('100%');") /\ report_of (B"INSERT INTO r VALUES ('100%');") r_pct /\ pq_of r_pct e_pct /\
  annotate Postgres (PqErr e_pct) (B"INSERT INTO r VALUES ('100%');")
    = Text (B"pq: duplicate key" ++ [LF] ++ B"detail: Key (rate)=(100%!)(MISSING) already exists.") /\
  forall s, annotate Postgres (PqErr e_pct) (B"INSERT INTO r VALUES ('100%');") = Text s -> ~ to_show (B"INSERT INTO r VALUES ('100%');") r_pct s.
Proof.
  assert (E : annotate Postgres (PqErr e_pct) (B"INSERT INTO r VALUES ('100%');")
    = Text (B"pq: duplicate key" ++ [LF] ++ B"detail: Key (rate)=(100%!)(MISSING) already exists.")) by (vm_compute; reflexivity).
  split; [reflexivity|]. split; [exact Logic.I|]. split; [repeat split|]. split; [exact E|].
  intros s Q (front & S & F). rewrite E in Q. injection Q as <-. cbn in F. subst front. vm_compute in S. discriminate S.
Qed.
Definition m_pct : msreport :=
  {| m_text := B"mssql: Could not create constraint or index."; m_line := 3;
     m_all := [B"Conversion failed when converting the varchar value '5%' to data type int."; B"Could not create constraint or index."] |}.
Definition em_pct : mserr := {| ms_text := m_text m_pct; ms_line := 3%Z; ms_all := m_all m_pct |}.
Theorem C94_refuted_sqlserver :
  ~ shows_sqlserver /\ ms_of m_pct em_pct /\
  annotate SQLServer (MsErr em_pct) [] = Text (B"line 3: mssql: Could not create constraint or index." ++ [LF] ++
    B"Conversion failed when converting the varchar value '5%!'(MISSING) to data type int." ++ [LF] ++ B"Could not create constraint or index.").
Proof.
  assert (O : ms_of m_pct em_pct) by (repeat split).
  split; [|split; [exact O|vm_compute; reflexivity]]. intros P. destruct (P [] m_pct em_pct O) as (s & E & n & (W & c & r & -> & _) & S).
  vm_compute in E. injection E as E. rewrite S in E. cbn in E. injection E as <- E.
  destruct r as [|c2 r]; [cbn in E; discriminate E|]. cbn in E. injection E as <- E. vm_compute in W. discriminate W.
Qed.

(** ** What is true *)
(** An ASCII script, a position of one of its characters other than a line
    feed, and a detail and a hint without percent signs: exactly what the
    database said, with the right line. *)
Theorem C94_partial : forall query r e, fits query -> report_of query r -> pq_of r e ->
  ascii_text query ->
  (forall p, r_position r = Some p -> exists c, nth_error query (p - 1) = Some c /\ c <> LF) ->
  plain (r_detail r) -> plain (r_hint r) ->
  exists s, annotate Postgres (PqErr e) query = Text s /\ to_show query r s.
Proof.
  intros query [t po de hi] [et ep ed eh] F R (Et & Ed & Eh & Ep) A I Pd Ph. unfold report_of in R. cbn [r_text r_position r_detail r_hint pq_text pq_position pq_detail pq_hint] in *.
  subst et ed eh. cbn [annotate]. unfold annotate_pq. cbn [pq_text pq_position pq_detail pq_hint].
  assert (Sd : plain (section (LF :: B"detail: ") de)).
  { destruct de; [intros []|]. unfold section. apply plain_app. split; [|exact Pd]. vm_compute. intuition discriminate. }
  assert (Sh : plain (section (LF :: B"hint: ") hi)).
  { destruct hi; [intros []|]. unfold section. apply plain_app. split; [|exact Ph]. vm_compute. intuition discriminate. }
  assert (Xd : section (LF :: B"detail: ") de = extra (B"detail") de) by (destruct de; reflexivity).
  assert (Xh : section (LF :: B"hint: ") hi = extra (B"hint") hi) by (destruct hi; reflexivity).
  destruct po as [p|].
  - destruct (I p eq_refl) as (c & N & NL). rewrite (ascii_characters _ A) in R.
    assert (NN : p - 1 < List.length query) by (apply nth_error_Some; congruence).
    rewrite (parse_written _ _ Ep) by (unfold fits in F; lia).
    unfold slice_to. assert (((Z.of_nat p <? 0) || (Z.of_nat (List.length query) <? Z.of_nat p))%Z = false) as -> by lia.
    rewrite Nat2Z.id. destruct p as [|p]; [lia|]. cbn [Nat.sub] in *. rewrite Nat.sub_0_r in *.
    rewrite (firstn_S_nth _ _ _ N), count_lf_app.
    assert (count_lf [c] = 0) as -> by (unfold count_lf; cbn [count_occ]; destruct (ascii_dec c LF); [contradiction|reflexivity]).
    rewrite Nat.add_0_r, itoa_nat. set (line := count_lf (firstn p query) + 1).
    set (n := N_dec (N.of_nat line)). rewrite (app_assoc (B"line ")), (app_assoc (B"line " ++ n)), <- (app_assoc (B"line ")).
    assert (PF : plain (B"line " ++ n ++ B": ")).
    { apply plain_app. split; [vm_compute; intuition discriminate|]. apply plain_app. split; [apply digits_plain, N_dec_digits|vm_compute; intuition discriminate]. }
    eexists. split.
    + apply errorf_plain; [exact PF|]. apply plain_app. split; [exact Sd|exact Sh].
    + rewrite Xd, Xh. exists (B"line " ++ n ++ B": "). cbn [r_text r_position r_detail r_hint]. split; [reflexivity|].
      exists line, n. split; [|split; [apply writes_dec|reflexivity]]. split; [|lia].
      rewrite (ascii_before _ _ A). replace (line - 1) with (count_lf (firstn p query)) by lia. apply count_lf_feeds.
  - subst ep. change (parse_int []) with (@None Z). cbv iota.
    assert (forall x, (exists s, x = Text s /\ to_show query {| r_text := t; r_position := None; r_detail := de; r_hint := hi |} s) <->
              x = Text (t ++ extra (B"detail") de ++ extra (B"hint") hi)) as H.
    { intros x. split.
      - intros (s & -> & front & -> & ->). reflexivity.
      - intros ->. eexists. split; [reflexivity|]. exists []. split; reflexivity. }
    apply H. destruct de as [|d de]; [destruct hi as [|h hi]|].
    + cbn. rewrite app_nil_r. reflexivity.
    + rewrite <- Xd, <- Xh. apply (errorf_plain []); [intros []|]. apply plain_app. split; assumption.
    + rewrite <- Xd, <- Xh. apply (errorf_plain []); [intros []|]. apply plain_app. split; assumption.
Qed.

(** Of the reports about an ASCII script, exactly those "at end of input"
    crash the program. *)
Theorem C94_crash : forall query r e, fits query -> report_of query r -> pq_of r e -> ascii_text query ->
  (annotate Postgres (PqErr e) query = Crash <-> r_position r = Some (characters query + 1)).
Proof.
  intros query r e F R (Et & Ed & Eh & Ep) A. rewrite (ascii_characters _ A). unfold report_of in R. rewrite (ascii_characters _ A) in R.
  assert (NE : forall f a, errorf f a <> Crash) by (intros f a; unfold errorf; destruct (printf _ _ _); discriminate).
  cbn [annotate]. unfold annotate_pq. destruct (r_position r) as [p|].
  - rewrite (parse_written _ _ Ep) by (unfold fits in F; lia). unfold slice_to.
    destruct ((Z.of_nat p <? 0) || (Z.of_nat (List.length query) <? Z.of_nat p))%Z eqn:Q.
    + split; [|reflexivity]. intros _. f_equal. lia.
    + split; [intros H; exfalso; apply (NE _ _ H)|]. intros H. injection H as H. lia.
  - rewrite Ep. change (parse_int []) with (@None Z). cbv iota. split; [|discriminate].
    destruct (pq_detail e); [destruct (pq_hint e)|]; intros H; try discriminate; exfalso; apply (NE _ _ H).
Qed.
(** Whatever the text, a line that is shown is never beyond the line of the
    error, unless the error is at a line feed: letters of several bytes only
    make it too small. *)
Theorem C94_line_bound : forall query p line, on_line query p line -> 1 <= p ->
  (forall c, nth_error query (p - 1) = Some c -> c <> LF) -> count_lf (firstn p query) + 1 <= line.
Proof.
  intros query p line (L & G) P N. apply feeds_count in L. destruct (before_prefix query p) as (r & E). rewrite E, count_lf_app in L.
  destruct p as [|p]; [lia|]. cbn [Nat.sub] in *. rewrite Nat.sub_0_r in *. destruct (nth_error query p) as [c|] eqn:Q.
  - rewrite (firstn_S_nth _ _ _ Q), count_lf_app. specialize (N c eq_refl).
    assert (count_lf [c] = 0) by (unfold count_lf; cbn [count_occ]; destruct (ascii_dec c LF); [contradiction|reflexivity]). lia.
  - apply nth_error_None in Q. rewrite firstn_all2 in L by lia. rewrite firstn_all2 by lia. lia.
Qed.

(** SQL Server: messages without percent signs are shown as they are, with the line. *)
Lemma each_below_flat : forall l, flat_map (fun m => LF :: m) l = each_below l.
Proof. induction l as [|m l IH]; [reflexivity|]. cbn [flat_map each_below app]. rewrite IH. reflexivity. Qed.
Theorem C94_sqlserver_partial : forall query r e, ms_of r e ->
  (forall m, 2 <= List.length (m_all r) -> In m (m_all r) -> plain m) ->
  exists s, annotate SQLServer (MsErr e) query = Text s /\ ms_to_show r s.
Proof.
  intros query r e (T & L & A) P. cbn [annotate]. unfold annotate_ms. rewrite T, L, A, itoa_nat. set (n := N_dec (N.of_nat (m_line r))).
  set (tl := if 1 <? List.length (m_all r) then _ else _).
  assert (Q : plain tl).
  { unfold tl. destruct (Nat.ltb_spec 1 (List.length (m_all r))) as [H|H]; [|intros []]. specialize (fun m => P m ltac:(lia)).
    clear - P. induction (m_all r) as [|m l IH]; [intros []|]. cbn [flat_map]. intros I. cbn in I. rewrite in_app_iff in I. destruct I as [I|[I|I]].
    - discriminate I.
    - apply (P m (or_introl eq_refl) I).
    - apply IH; [|exact I]. intros m' I'. apply P. right. exact I'. }
  assert (PF : plain (B"line " ++ n ++ B": ")).
  { apply plain_app. split; [vm_compute; intuition discriminate|]. apply plain_app. split; [apply digits_plain, N_dec_digits|vm_compute; intuition discriminate]. }
  exists (B"line " ++ n ++ B": " ++ m_text r ++ tl). split.
  - change (B": %w") with (B": " ++ B"%w"). rewrite <- (app_assoc (B": ")). rewrite (app_assoc n), (app_assoc (B"line ")), errorf_plain by assumption. rewrite <- !app_assoc. reflexivity.
  - exists n. split; [apply writes_dec|]. do 4 f_equal. unfold tl. destruct (m_all r) as [|a [|b l]]; [reflexivity..|]. cbn [List.length Nat.ltb Nat.leb]. apply each_below_flat.
Qed.
(** Whatever the report, what is shown besides the line and the text is what
    becomes of the detail and the hint, or of the messages, as a format. *)
Lemma front_plain : forall n, plain (B"line " ++ N_dec n ++ B": ").
Proof.
  intros n. apply plain_app. split; [vm_compute; intuition discriminate|]. apply plain_app. split; [apply digits_plain, N_dec_digits|vm_compute; intuition discriminate].
Qed.
Lemma itoa_of_nat : forall n, B"line " ++ itoa (Z.of_nat n) ++ B": " = B"line " ++ N_dec (N.of_nat n) ++ B": ".
Proof. intros n. rewrite itoa_nat. reflexivity. Qed.
Theorem C94_garbled : forall query e s, annotate Postgres (PqErr e) query = Text s ->
  exists front rest, s = front ++ pq_text e ++ rest /\
    (front = [] \/ exists n, front = B"line " ++ N_dec n ++ B": ") /\
    garbled (extra (B"detail") (pq_detail e) ++ extra (B"hint") (pq_hint e)) rest.
Proof.
  intros query e s E. cbn [annotate] in E. unfold annotate_pq in E.
  assert (Xd : section (LF :: B"detail: ") (pq_detail e) = extra (B"detail") (pq_detail e)) by (destruct (pq_detail e); reflexivity).
  assert (Xh : section (LF :: B"hint: ") (pq_hint e) = extra (B"hint") (pq_hint e)) by (destruct (pq_hint e); reflexivity).
  rewrite Xd, Xh in E. destruct (parse_int (pq_position e)) as [pos|].
  - destruct (slice_to query pos) as [bf|]; [|discriminate].
    rewrite itoa_nat, (app_assoc (B"line ")), (app_assoc (B"line " ++ _)), <- (app_assoc (B"line ")) in E.
    apply errorf_garbled in E as (rest & G & ->); [|apply front_plain]. eexists _, rest. split; [reflexivity|]. split; [right; eexists; reflexivity|exact G].
  - assert (A : s = pq_text e /\ pq_detail e = [] /\ pq_hint e = [] \/
                errorf ([] ++ B"%w" ++ extra (B"detail") (pq_detail e) ++ extra (B"hint") (pq_hint e)) (pq_text e) = Text s).
    { destruct (pq_detail e); [destruct (pq_hint e)|]; [left; split; [congruence|split; reflexivity]|right; exact E|right; exact E]. }
    destruct A as [(-> & -> & ->)|A].
    + exists [], []. split; [cbn; rewrite app_nil_r; reflexivity|]. split; [left; reflexivity|constructor].
    + apply errorf_garbled in A as (rest & G & ->); [|intros []]. exists [], rest. split; [reflexivity|]. split; [left; reflexivity|exact G].
Qed.
Theorem C94_garbled_sqlserver : forall query e n s, ms_line e = Z.of_nat n -> annotate SQLServer (MsErr e) query = Text s ->
  exists rest, s = B"line " ++ N_dec (N.of_nat n) ++ B": " ++ ms_text e ++ rest /\
    garbled (match ms_all e with [] | [_] => [] | l => each_below l end) rest.
Proof.
  intros query e n s L E. cbn [annotate] in E. unfold annotate_ms in E. rewrite L, itoa_nat in E.
  change (B": %w") with (B": " ++ B"%w") in E. rewrite <- (app_assoc (B": ")) in E. rewrite (app_assoc (N_dec _)), (app_assoc (B"line ")) in E.
  apply errorf_garbled in E as (rest & G & ->); [|apply front_plain]. exists rest. split; [rewrite <- !app_assoc; reflexivity|].
  destruct (ms_all e) as [|a [|b l]]; [exact G..|]. rewrite <- each_below_flat. exact G.
Qed.
(** Errors of other kinds are left alone. *)
Theorem C94_others : forall d t query, annotate d (OtherErr t) query = Text t.
Proof. destruct d; reflexivity. Qed.

(** The hypotheses of the positive theorems hold of a script with an error in its third line. *)
Definition q_ok : bytes := B"BEGIN;" ++ [LF] ++ B"SELECT 1;" ++ [LF] ++ B"SELECT nme FROM t;".
Definition r_ok : pgreport :=
  {| r_text := B"pq: column ""nme"" does not exist"; r_position := Some 25; r_detail := []; r_hint := B"Perhaps you meant to reference the column ""t.name""." |}.
Example C94_example : exists e s, fits q_ok /\ report_of q_ok r_ok /\ pq_of r_ok e /\ ascii_text q_ok /\
  (exists c, nth_error q_ok (25 - 1) = Some c /\ c <> LF) /\ plain (r_detail r_ok) /\ plain (r_hint r_ok) /\
  annotate Postgres (PqErr e) q_ok = Text s /\ to_show q_ok r_ok s /\
  s = B"line 3: pq: column ""nme"" does not exist" ++ [LF] ++ B"hint: Perhaps you meant to reference the column ""t.name"".".
Proof.
  set (e := {| pq_text := r_text r_ok; pq_position := B"25"; pq_detail := []; pq_hint := r_hint r_ok |}).
  assert (O : pq_of r_ok e).
  { repeat split. exists "2"%char, (B"5"). split; [reflexivity|]. intros _. discriminate. }
  assert (A : ascii_text q_ok) by (apply Forall_forall; intros c I; apply Nat.ltb_lt; revert c I; apply forallb_forall; vm_compute; reflexivity).
  assert (N : exists c, nth_error q_ok (25 - 1) = Some c /\ c <> LF) by (eexists; split; [vm_compute; reflexivity|discriminate]).
  assert (H : plain (r_hint r_ok)) by (vm_compute; intuition discriminate).
  destruct (C94_partial q_ok r_ok e) as (s & E & S); try assumption.
  - reflexivity.
  - vm_compute. lia.
  - intros p Q. injection Q as <-. exact N.
  - intros [].
  - exists e, s. split; [reflexivity|]. split; [vm_compute; lia|]. do 6 (split; [assumption || (intros []; fail) || idtac|]); try assumption.
    split; [exact S|]. vm_compute in E. injection E as <-. reflexivity.
Qed.

Print Assumptions C94_refuted.
Print Assumptions C94_refuted_line.
Print Assumptions C94_refuted_percent.
Print Assumptions C94_refuted_sqlserver.
Print Assumptions C94_partial.
Print Assumptions C94_crash.
Print Assumptions C94_line_bound.
Print Assumptions C94_sqlserver_partial.
Print Assumptions C94_garbled.
Print Assumptions C94_garbled_sqlserver.
