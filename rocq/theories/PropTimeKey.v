(** C120: a subset query keeps every key it finds, and a key that is a time names its own instant. *)
From Coq Require Import Lia.
From Verif Require Import GoStr GoStrFacts ModelDdl ModelCsv ModelStamp ModelSubset ModelSubsetText ModelTimeKey SpecStamp SpecTimeKey StampDays StampText TimeKeyFacts.
Open Scope Z_scope.

(** The whole claim. *)
Definition C120_statement : Prop := forall d ty rows broke lits, scan_kind d ty = KindTime -> read_keys d ty rows broke = Ok lits -> found rows broke lits.

Lemma strip_quotes w w' : B"'" ++ w ++ B"'" = B"'" ++ w' ++ B"'" -> w = w'.
Proof. intros E. injection E as E. apply app_inj_tail in E. exact (proj1 E). Qed.
(** A literal names one instant. *)
Theorem C120_one l z n z' n' : names l z n -> names l z' n' -> z = z' /\ n = n'.
Proof. intros (w & -> & S) (w' & E & S'). apply strip_quotes in E. subst w'. eapply shows_one; eassumption. Qed.
(** The literal of a time names its second, and its instant exactly when that is a whole second. *)
Theorem C120_exact d ty v z n : meant v z n -> in_years z -> exists l, time_key d ty v = Ok l /\
  (exists n', names l z n' /\ 0 <= n' <= n) /\ (names l z n <-> n = 0).
Proof.
  intros M R. pose proof (meant_range _ _ _ M) as N. unfold time_key. rewrite (meant_scan _ _ _ M). cbn [bindr]. eexists. split; [reflexivity|].
  destruct (literal_names d ty z n R N) as (w & E & S). rewrite E. split.
  - exists (rounded n). split; [exists w; auto|]. unfold rounded. pose proof (Z.div_mod n 1000000 ltac:(lia)). pose proof (Z.mod_pos_bound n 1000000 ltac:(lia)). pose proof (Z.div_pos n 1000000). destruct (n mod 1000000 =? 0); lia.
  - rewrite <- (rounded_same n) by lia. split.
    + intros (w' & E' & S'). apply strip_quotes in E'. subst w'. apply (shows_one w z _ z n S S').
    + intros E'. exists w. rewrite E' in S. auto.
Qed.
(** Missing: instants within a second, and queries that break off. *)
Theorem C120_partial d ty rows : Forall (fun v => exists z, meant v z 0 /\ in_years z) rows ->
  exists lits, read_keys d ty rows false = Ok lits /\ found rows false lits /\ List.length lits = List.length rows.
Proof.
  unfold read_keys, found. induction 1 as [|v rows (z & M & R) _ (lits & E & (_ & F) & L)]; [exists []; cbn; auto|].
  destruct (C120_exact d ty v z 0 M R) as (l & El & _ & X). exists (l :: lits). cbn [mapr]. rewrite El. cbn [bindr]. rewrite E. cbn [bindr]. split; [reflexivity|]. split; [|cbn; congruence].
  split; [reflexivity|]. constructor; [|exact F]. intros z' n' M' _. apply meant_scan in M. apply meant_scan in M'. rewrite M in M'. injection M' as <- <-. apply X. reflexivity.
Qed.
(** Keys are never mixed up: each literal comes from its own row, and two times in different seconds have different literals. *)
Theorem C120_apart d ty v v' z z' n n' l : meant v z n -> meant v' z' n' -> in_years z -> in_years z' -> time_key d ty v = Ok l -> time_key d ty v' = Ok l -> z = z'.
Proof.
  intros M M' R R' E E'. destruct (C120_exact d ty v z n M R) as (l1 & E1 & (m & N & _) & _). destruct (C120_exact d ty v' z' n' M' R') as (l2 & E2 & (m' & N' & _) & _).
  rewrite E in E1. rewrite E' in E2. injection E1 as <-. injection E2 as <-. exact (proj1 (C120_one _ _ _ _ _ N N')).
Qed.
(** Exactly the texts that are read. *)
Theorem C120_texts s t : s <> [] -> (exists n, scan_time (DrText s) = Ok (Some (t, n))) <-> time_text true (trim_suffix s (B"Z")) t.
Proof.
  intros N. cbn [scan_time]. destruct s as [|c s]; [contradiction|]. rewrite <- stamp_text_iff. destruct (stamp_text _) as [z|].
  - split; [intros (n & E); injection E as -> _; reflexivity|intros E; injection E as ->; eexists; reflexivity].
  - split; [intros (n & E); discriminate E|discriminate].
Qed.
(** Times of day (type TIME of MySQL) are refused. *)
Theorem C120_clock_refused d ty h m s a b c : writes 2 h a -> writes 2 m b -> writes 2 s c -> time_key d ty (DrText (a ++ B":" ++ b ++ B":" ++ c)) = Err.
Proof.
  intros A B' C. apply writes2 in A, B', C. destruct A as (a1 & a2 & x1 & x2 & -> & A1 & A2 & _), B' as (b1 & b2 & y1 & y2 & -> & B1 & B2 & _), C as (c1 & c2 & u1 & u2 & -> & C1 & C2 & _).
  unfold time_key. cbn [scan_time app].
  destruct (stamp_text (trim_suffix (a1 :: a2 :: ":"%char :: b1 :: b2 :: ":"%char :: [c1; c2]) (B"Z"))) as [z|] eqn:E; [|cbn in *; rewrite E; reflexivity]. exfalso.
  apply stamp_text_iff in E. assert (T : trim_suffix (a1 :: a2 :: ":"%char :: b1 :: b2 :: ":"%char :: [c1; c2]) (B"Z") = a1 :: a2 :: ":"%char :: b1 :: b2 :: ":"%char :: [c1; c2]).
  { apply trim_suffix_none. destruct (has_suffix _ _) eqn:H; [|reflexivity]. apply has_suffix_iff in H. destruct H as (y & H). change (a1 :: a2 :: ":"%char :: b1 :: b2 :: ":"%char :: [c1; c2]) with ([a1; a2; ":"%char; b1; b2; ":"%char; c1] ++ [c2]) in H.
    apply app_inj_tail in H. destruct H as (_ & ->). discriminate C2. }
  rewrite T in E. clear T.
  assert (Y : forall t s0 r x, date_text s0 x -> t = s0 ++ r -> nth_error t 2 <> Some ":"%char).
  { intros t s0 r x [y m0 d0 p q e W _ _ _] ->. apply writes4 in W. destruct W as (p1 & p2 & p3 & p4 & v1 & v2 & v3 & v4 & -> & _ & _ & D3 & _). cbn. intros X. injection X as ->. discriminate D3. }
  assert (Q : nth_error [a1; a2; ":"%char; b1; b2; ":"%char; c1; c2] 2 = Some ":"%char) by reflexivity. revert E Q. generalize [a1; a2; ":"%char; b1; b2; ":"%char; c1; c2]. intros t0 E Q.
  destruct E as [s0 x n T D|s0 x n b0 c0 t T D Hb C0|s0 x n b0 c0 t w k f T D Hb C0 W K F|s0 x n b0 c0 t w k f u o T D Hb C0 W K F U].
  - apply (Y s0 s0 [] x T); [rewrite app_nil_r; reflexivity|exact Q].
  - exact (Y _ s0 _ x T eq_refl Q).
  - exact (Y _ s0 _ x T eq_refl Q).
  - exact (Y _ s0 _ x T eq_refl Q).
Qed.
(** Numbers: seconds up to 10^12, milliseconds as far as the nanoseconds fit into 64 bits. *)
Theorem C120_seconds z : - 10 ^ 12 <= z <= 10 ^ 12 -> scan_time (DrInt z) = Ok (Some (z, 0)).
Proof. intros R. cbn [scan_time]. assert ((10 ^ 12 <? z) || (z <? - 10 ^ 12) = false)%bool as -> by lia. reflexivity. Qed.
Theorem C120_milliseconds z ms : 10 ^ 12 < Z.abs (z * 1000 + ms) <= 9223372036854 -> 0 <= ms < 1000 -> scan_time (DrInt (z * 1000 + ms)) = Ok (Some (z, ms * 1000000)).
Proof.
  intros R M. cbn [scan_time]. assert ((10 ^ 12 <? z * 1000 + ms) || (z * 1000 + ms <? - 10 ^ 12) = true)%bool as -> by lia.
  assert (wrap64 ((z * 1000 + ms) * 1000000) = z * 1000000000 + ms * 1000000) as ->. { unfold wrap64. rewrite Z.mod_small by lia. lia. }
  cbv zeta. do 3 f_equal.
  - symmetry. apply Z.div_unique with (ms * 1000000); lia.
  - symmetry. apply Z.mod_unique with z; lia.
Qed.

(** ** Cases *)
Lemma year_text : date_text (B"2024-01-15") (Date 2024 1 15).
Proof.
  apply (date_text_of 2024 1 15 (B"2024") (B"01") (B"15")); [apply (pad4_writes 2024); lia|apply (pad2_writes 1); lia|apply (pad2_writes 15); lia|].
  apply valid_date_iff. vm_compute. intuition discriminate.
Qed.
Lemma year_number : day_number (Date 2024 1 15) 19737.
Proof. apply day_number_iff. split; [split; vm_compute; split; discriminate|reflexivity]. Qed.
Lemma year_shows : shows (B"2024-01-15") 1705276800 0.
Proof. apply shows_seconds; [apply (tt_date false _ _ 19737 year_text year_number)|cbn; intuition discriminate]. Qed.
Lemma half_shows : shows (B"2024-01-15 10:20:30.5") 1705314030 500000000.
Proof.
  apply (shows_fraction (B"2024-01-15 10:20:30") (B"5") 1705314030 1 5).
  - apply (tt_seconds false (B"2024-01-15") (Date 2024 1 15) 19737 (B" ") (B"10:20") 37200 (B"30") 30 (B".5") year_text year_number).
    + apply (between_space false 0). auto.
    + apply (clock_text_of false 2 10 20 (B"10") (B"20")); [apply (pad2_writes 10); lia|auto|lia|apply (pad2_writes 20); lia|lia].
    + apply (pad2_writes 30). lia.
    + lia.
    + constructor; cbn; auto 10. intros x [].
  - cbn. intuition discriminate.
  - apply writes1. exists "5"%char. split; reflexivity.
  - lia.
Qed.
(** A query that breaks off gives fewer keys, and no error. *)
Theorem C120_refuted : ~ C120_statement.
Proof. intros C. destruct (C MySQL (B"DATE") [DrText (B"2024-01-15")] true _ eq_refl eq_refl) as (X & _). discriminate X. Qed.
(** Half past a second is written as the second. *)
Theorem C120_refuted_fractions : exists lits, read_keys MySQL (B"DATETIME") [DrText (B"2024-01-15 10:20:30.5")] false = Ok lits /\ ~ found [DrText (B"2024-01-15 10:20:30.5")] false lits.
Proof.
  destruct (C120_exact MySQL (B"DATETIME") (DrText (B"2024-01-15 10:20:30.5")) 1705314030 500000000) as (l & E & _ & X); [constructor; exact half_shows|unfold in_years; lia|].
  exists [l]. split; [unfold read_keys; cbn [mapr]; rewrite E; reflexivity|]. intros (_ & F). inversion F as [|? ? ? ? N]; subst.
  specialize (N 1705314030 500000000). apply X in N; [discriminate N|constructor; exact half_shows|unfold in_years; lia].
Qed.
Example C120_found : exists lits, read_keys MySQL (B"DATE") [DrText (B"2024-01-15"); DrTime (-1) 0] false = Ok lits /\ found [DrText (B"2024-01-15"); DrTime (-1) 0] false lits /\ lits = [B"'2024-01-15 00:00:00'"; B"'1969-12-31 23:59:59'"].
Proof.
  destruct (C120_partial MySQL (B"DATE") [DrText (B"2024-01-15"); DrTime (-1) 0]) as (lits & E & F & _).
  - constructor; [exists 1705276800; split; [constructor; exact year_shows|unfold in_years; lia]|]. constructor; [|constructor]. exists (-1). split; [constructor; lia|unfold in_years; lia].
  - exists lits. split; [exact E|]. split; [exact F|]. vm_compute in E. injection E as <-. reflexivity.
Qed.
Example C120_written : time_key MySQL (B"DATETIME") (DrText (B"2024-01-15 10:20:30.5")) = Ok (B"'2024-01-15 10:20:30'") /\ time_key MySQL (B"DATETIME") (DrText (B"2024-01-15 10:20:30.123456")) = Ok (B"'2024-01-15 10:20:30.123'") /\
  time_key SQLServer (B"DATETIMEOFFSET") (DrTime 1705314030 999000001) = Ok (B"'2024-01-15 10:20:30.999'") /\ time_key MySQL (B"DATE") DrNull = Ok (B"NULL").
Proof. vm_compute. repeat split. Qed.
Example C120_refused : time_key MySQL (B"TIME") (DrText (B"10:20:30")) = Err /\ time_key MySQL (B"DATE") (DrText (B"0000-00-00")) = Err /\ time_key MySQL (B"DATE") (DrText (B"2024-00-00")) = Err /\ time_key MySQL (B"DATE") DrOther = Err.
Proof. vm_compute. repeat split. Qed.
Example C120_clock : time_key MySQL (B"TIME") (DrText (B"10:20:30")) = Err.
Proof. apply (C120_clock_refused MySQL (B"TIME") 10 20 30 (B"10") (B"20") (B"30")); [apply (pad2_writes 10)|apply (pad2_writes 20)|apply (pad2_writes 30)]; lia. Qed.
(** From 2262 on milliseconds wrap around; milliseconds before September 2001 are taken for seconds. *)
Example C120_numbers : scan_time (DrInt 1705314030123) = Ok (Some (1705314030, 123000000)) /\ scan_time (DrInt 9223372036855) = Ok (Some (-9223372037, 145448384)) /\ scan_time (DrInt 86400000) = Ok (Some (86400000, 0)).
Proof. vm_compute. repeat split. Qed.

Print Assumptions C120_one.
Print Assumptions C120_exact.
Print Assumptions C120_partial.
Print Assumptions C120_apart.
Print Assumptions C120_texts.
Print Assumptions C120_clock_refused.
Print Assumptions C120_seconds.
Print Assumptions C120_milliseconds.
Print Assumptions C120_refuted.
Print Assumptions C120_refuted_fractions.
