(** C113: load --timestamp-as-integer; the texts of times that dump writes are read back as the same second. *)
From Coq Require Import Lia.
From Verif Require Import GoStr GoStrFacts ModelCsv ModelStamp SpecStamp StampDays StampText.
Open Scope Z_scope.

(** Columns whose fields are converted. *)
Definition converts (c : load_config) (t : bytes) : Prop := ld_dialect c = SQLite /\ ld_stamps c = true /\ In t [B"TIMESTAMP"; B"DATETIME"; B"DATE"].
Definition not_null (c : load_config) (f : bytes) : Prop := ld_no_null c = true \/ f <> ld_null c.
Lemma load_field_stamp stamp c t f : converts c t -> not_null c f ->
  load_field stamp c t f = Ok (match stamp (trim_suffix f (B"Z")) with Some z => RUnix z | None => RString f end).
Proof.
  intros (D & S & T) N. unfold load_field. rewrite D, S. assert (negb (ld_no_null c) && beqb f (ld_null c) = false)%bool as ->.
  { destruct N as [->|N]; [reflexivity|]. destruct (beqb_spec f (ld_null c)) as [E|E]; [contradiction|apply Bool.andb_false_r]. }
  destruct T as [<-|[<-|[<-|[]]]]; reflexivity.
Qed.

(** The whole claim. *)
Definition C113_statement : Prop := forall c t f, converts c t -> not_null c f ->
  (forall z, sqlite_text f z -> load_field stamp_text c t f = Ok (RUnix z)) /\
  (forall s z, f = s ++ B"Z" -> time_text false s z -> load_field stamp_text c t f = Ok (RUnix z)).

(** Every text in one of the formats, with or without Z, becomes the second it denotes. *)
Theorem C113_partial c t s z : converts c t -> time_text false s z -> forall f, f = s \/ f = s ++ B"Z" -> not_null c f -> load_field stamp_text c t f = Ok (RUnix z).
Proof.
  intros V T f F N. rewrite load_field_stamp by assumption. assert (trim_suffix f (B"Z") = s) as ->. { destruct F as [-> | ->]; [apply (trim_Z s z false T)|apply trim_suffix_app]. }
  rewrite (proj2 (stamp_text_iff s z) (time_loose s z T)). reflexivity.
Qed.
(** Exactly which fields become numbers, and which; all others stay as they are. *)
Theorem C113_exact c t f : converts c t -> not_null c f -> forall v,
  load_field stamp_text c t f = Ok v <->
  (exists z, v = RUnix z /\ time_text true (trim_suffix f (B"Z")) z) \/ (v = RString f /\ forall z, ~ time_text true (trim_suffix f (B"Z")) z).
Proof.
  intros V N v. rewrite load_field_stamp by assumption. destruct (stamp_text (trim_suffix f (B"Z"))) as [z|] eqn:E; split.
  - intros X. injection X as <-. left. exists z. split; [reflexivity|apply stamp_text_iff, E].
  - intros [(z' & -> & T)|(_ & X)]; [|exfalso; apply (X z), stamp_text_iff, E]. apply stamp_text_iff in T. rewrite T in E. injection E as <-. reflexivity.
  - intros X. injection X as <-. right. split; [reflexivity|]. intros z T. apply stamp_text_iff in T. congruence.
  - intros [(z' & -> & T)|(-> & X)]; [|reflexivity]. apply stamp_text_iff in T. congruence.
Qed.
(** A text is the text of one second only. *)
Theorem C113_one s z z' : time_text true s z -> time_text true s z' -> z = z'.
Proof. rewrite <- !stamp_text_iff. congruence. Qed.
(** A time that dump writes is loaded as the second it was in. *)
Theorem C113_round out dc lc t s ns f : scan_kind dc t = KTime -> converts lc t -> -62167219200 <= s < 253402300800 ->
  dump_field format_time out dc t (DTime s ns) = Ok f -> not_null lc f -> load_field stamp_text lc t f = Ok (RUnix s).
Proof.
  intros K V R D N. unfold dump_field in D. rewrite K in D. injection D as <-. eapply C113_partial; [exact V|apply format_time_text, R|left; reflexivity|exact N].
Qed.
(** The days are numbered: every date has one number, every number one date. *)
Theorem C113_days : (forall x, valid_date x <-> exists n, day_number x n) /\ (forall x n n', day_number x n -> day_number x n' -> n = n') /\
  (forall n, exists x, day_number x n) /\ (forall x x' n, day_number x n -> day_number x' n -> x = x').
Proof.
  split; [|split; [|split]].
  - intros [y m d]. split.
    + intros V. apply valid_date_iff in V. apply number_of; tauto.
    + intros (n & D). apply day_number_days in D. apply valid_date_iff. exact (proj1 D).
  - intros x n n' D D'. apply day_number_days in D. apply day_number_days in D'. lia.
  - intros n. eexists. apply day_number_at.
  - intros x x' n D D'. apply day_number_days in D. apply day_number_days in D'. apply days_inj; [tauto|tauto|lia].
Qed.

(** ** Cases *)
Definition sqlite_config : load_config := LoadConfig SQLite (B"\N") (B"0x") false false true.
Lemma leap_day : day_number (Date 2020 2 29) 18321.
Proof. apply day_number_iff. split; [split; vm_compute; split; discriminate|reflexivity]. Qed.
Lemma leap_text : date_text (B"2020-02-29") (Date 2020 2 29).
Proof.
  apply (date_text_of 2020 2 29 (B"2020") (B"02") (B"29")).
  - apply (pad4_writes 2020). lia.
  - apply (pad2_writes 2). lia.
  - apply (pad2_writes 29). lia.
  - apply valid_date_iff. vm_compute. intuition discriminate.
Qed.
Lemma ten_eleven : clock_text false (B"10:11") 36660.
Proof. apply (clock_text_of false 2 10 11 (B"10") (B"11")); [apply (pad2_writes 10); lia|auto|lia|apply (pad2_writes 11); lia|lia]. Qed.
Lemma two_hours : zone_text false (B"+02:00") 7200.
Proof. apply (zone_text_of false true 2 0 (B"02") (B"00")); [apply (pad2_writes 2); lia|apply (pad2_writes 0); lia|lia]. Qed.
(** 10:11 in a zone two hours east of Greenwich is a time string of SQLite, and stays a text. *)
Theorem C113_refuted : ~ C113_statement.
Proof.
  intros C. destruct (C sqlite_config (B"DATETIME") (B"2020-02-29 10:11+02:00")) as (X & _).
  - split; [reflexivity|split; [reflexivity|cbn; auto]].
  - right. discriminate.
  - assert (T : sqlite_text (B"2020-02-29 10:11+02:00") (18321 * 86400 + 36660 - 7200)).
    { apply (sq_minutes_zone (B"2020-02-29") (Date 2020 2 29) 18321 (B" ") (B"10:11") 36660 [] (B"+02:00") 7200 leap_text leap_day); [apply (between_space false 0); auto|apply ten_eleven|auto|apply two_hours]. }
    specialize (X _ T). vm_compute in X. discriminate X.
Qed.
Example C113_seconds : load_field stamp_text sqlite_config (B"TIMESTAMP") (B"2020-02-29T10:11:12.5Z") = Ok (RUnix 1582971072) /\
  load_field stamp_text sqlite_config (B"DATE") (B"2020-02-29 10:11:12+02:00") = Ok (RUnix 1582963872) /\ load_field stamp_text sqlite_config (B"DATE") (B"1900-01-01") = Ok (RUnix (-2208988800)).
Proof. vm_compute. repeat split. Qed.
Example C113_texts : load_field stamp_text sqlite_config (B"DATETIME") (B"2021-02-29") = Ok (RString (B"2021-02-29")) /\ load_field stamp_text sqlite_config (B"TEXT") (B"2020-02-29") = Ok (RString (B"2020-02-29")) /\
  load_field stamp_text sqlite_config (B"DATETIME") (B"12:30") = Ok (RString (B"12:30")) /\ load_field stamp_text sqlite_config (B"DATETIME") (B"\N") = Ok RNil.
Proof. vm_compute. repeat split. Qed.
Example C113_leap : load_field stamp_text sqlite_config (B"DATE") (B"2020-02-29 10:11Z") = Ok (RUnix (18321 * 86400 + 36660)).
Proof.
  apply (C113_partial sqlite_config (B"DATE") (B"2020-02-29 10:11")); [split; [reflexivity|split; [reflexivity|cbn; auto]]| |right; reflexivity|right; discriminate].
  apply (tt_minutes false (B"2020-02-29") (Date 2020 2 29) 18321 (B" ") (B"10:11") 36660 leap_text leap_day); [apply (between_space false 0); auto|apply ten_eleven].
Qed.
Example C113_dumped : format_time 1582971072 = B"2020-02-29 10:11:12" /\ format_time (-1) = B"1969-12-31 23:59:59" /\ stamp_text (format_time (-1)) = Some (-1).
Proof. vm_compute. repeat split. Qed.
(** Go also reads some texts that SQLite does not. *)
Example C113_loose : stamp_text (B"2020-02-29   1:02:03,25+24:60") = Some (1582938123 - 90000) /\ stamp_text (B"2020-02-29 24:00") = None /\ stamp_text (B"2020-02-29 10:11:60") = None.
Proof. vm_compute. repeat split. Qed.

Print Assumptions C113_partial.
Print Assumptions C113_exact.
Print Assumptions C113_one.
Print Assumptions C113_round.
Print Assumptions C113_days.
Print Assumptions C113_refuted.
