(** Facts for C120: fractions, and the literals of keys. *)
From Coq Require Import Lia.
From Verif Require Import GoStr GoStrFacts ModelDdl ModelCsv ModelStamp ModelSubset ModelSubsetText ModelTimeKey SpecStamp SpecTimeKey StampDays StampText.
Open Scope Z_scope.

(** ** Signs in the texts of times *)
Definition tame (c : ascii) : Prop := In c figures \/ In c ["-"; ":"; " "; "T"; "+"; "."]%char.
Lemma writes_figures k n s : writes k n s -> forall c, In c s -> In c figures.
Proof.
  induction 1 as [|k n s i c _ IH E]; intros x I; [destruct I|]. apply in_app_or in I. destruct I as [I|[<-|[]]]; [exact (IH x I)|]. eapply nth_error_In, E.
Qed.
Lemma writes_length k n s : writes k n s -> List.length s = k.
Proof. induction 1 as [|k n s i c _ IH E]; [reflexivity|]. rewrite app_length, IH. cbn. lia. Qed.
Lemma writes_tame k n s : writes k n s -> Forall tame s.
Proof. intros W. apply Forall_forall. intros c I. left. eapply writes_figures; eassumption. Qed.
Lemma tame_lit s : forallb (fun c => existsb (ceqb c) ["-"; ":"; " "; "T"; "+"; "."]%char) s = true -> Forall tame s.
Proof.
  intros H. apply Forall_forall. intros c I. rewrite forallb_forall in H. specialize (H c I). apply existsb_exists in H. destruct H as (y & I' & E). right.
  destruct (ceqb_spec c y) as [->|]; [exact I'|discriminate].
Qed.
Lemma time_tame s z : time_text false s z -> Forall tame s.
Proof.
  assert (Ds : forall s x, date_text s x -> Forall tame s).
  { intros s0 x [y m d a b c A B' C _]. repeat (apply Forall_app; split); try (eapply writes_tame; eassumption); apply tame_lit; reflexivity. }
  assert (Cs : forall s x, clock_text false s x -> Forall tame s).
  { intros s0 x [k h m a b A _ _ B' _]. repeat (apply Forall_app; split); try (eapply writes_tame; eassumption); apply tame_lit; reflexivity. }
  assert (Bs : forall b, between false b -> Forall tame b).
  { intros b [|n [->|N]]; [apply tame_lit; reflexivity|apply tame_lit; reflexivity|discriminate N]. }
  assert (Fs : forall f, fraction_text false f -> Forall tame f).
  { intros f [|p c f0 [->|(N & _)] C A]; [constructor| |discriminate N]. constructor; [right; cbn; auto 10|]. constructor; [left; exact C|]. apply Forall_forall. intros x I. left. apply A, I. }
  assert (Us : forall u o, zone_text false u o -> Forall tame u).
  { intros u o [east h m a b A B' _]. constructor; [right; destruct east; cbn; auto 10|]. repeat (apply Forall_app; split); try (eapply writes_tame; eassumption); apply tame_lit; reflexivity. }
  intros [s0 x n T D|s0 x n b c t T D Hb C|s0 x n b c t w k f T D Hb C W K F|s0 x n b c t w k f u o T D Hb C W K F U];
    repeat (apply Forall_app; split); eauto using writes_tame; apply tame_lit; reflexivity.
Qed.
Lemma tame_comma : ~ tame ","%char.
Proof. intros [I|I]; cbn in I; repeat (destruct I as [I|I]; [discriminate I|]); exact I. Qed.

(** ** Nanoseconds *)
Lemma after_point_none s : Forall tame s -> ~ In "."%char s -> after_point s = None.
Proof.
  intros T N. induction T as [|c s H T IH]; [reflexivity|]. cbn [after_point]. destruct (ceqb_spec c ".") as [->|N1]; [exfalso; apply N; left; reflexivity|].
  destruct (ceqb_spec c ",") as [->|N2]; [exfalso; exact (tame_comma H)|]. cbn [orb]. apply IH. intros I. apply N. right. exact I.
Qed.
Lemma after_point_some a f : Forall tame a -> ~ In "."%char a -> after_point (a ++ "."%char :: f) = Some f.
Proof.
  intros T N. induction T as [|c s H T IH]; [reflexivity|]. cbn [after_point app]. destruct (ceqb_spec c ".") as [->|N1]; [exfalso; apply N; left; reflexivity|].
  destruct (ceqb_spec c ",") as [->|N2]; [exfalso; exact (tame_comma H)|]. cbn [orb]. apply IH. intros I. apply N. right. exact I.
Qed.
Lemma fraction_snoc s : (forall c, In c s -> In c figures) -> forall j c x, (List.length s < j)%nat -> digit_of c = Some x ->
  fraction j (s ++ [c]) = fraction j s + x * 10 ^ Z.of_nat (j - List.length s - 1).
Proof.
  induction s as [|a s IH]; intros A j c x L D.
  - destruct j as [|j]; [cbn in L; lia|]. cbn [app fraction List.length]. rewrite D. replace (S j - 0 - 1)%nat with j by lia. destruct j; cbn [fraction]; lia.
  - destruct j as [|j]; [cbn in L; lia|]. cbn [app fraction List.length]. destruct (proj1 (digit_of_In a) (A a (or_introl eq_refl))) as (v & ->).
    rewrite (IH (fun c I => A c (or_intror I)) j c x) by (cbn [List.length] in L; auto; lia). replace (S j - S (List.length s) - 1)%nat with (j - List.length s - 1)%nat by lia. lia.
Qed.
Lemma fraction_writes k v f : writes k v f -> forall j, (k <= j)%nat -> fraction j f = v * 10 ^ Z.of_nat (j - k).
Proof.
  induction 1 as [|k n s i c W IH E]; intros j L; [destruct j; reflexivity|].
  assert (D : digit_of c = Some (Z.of_nat i)) by (apply digit_of_iff; eauto).
  rewrite (fraction_snoc s (writes_figures _ _ _ W) j c (Z.of_nat i)) by (rewrite ?(writes_length _ _ _ W); auto; lia).
  rewrite IH by lia. rewrite (writes_length _ _ _ W). replace (j - k)%nat with (S (j - S k)) by lia. replace (S (j - S k) - 1)%nat with (j - S k)%nat by lia.
  rewrite Nat2Z.inj_succ, Z.pow_succ_r by lia. lia.
Qed.
Lemma shows_time s z n : shows s z n -> time_text false s z.
Proof. intros [? ? T _|? ? ? ? ? T _ _ _]; exact T. Qed.
Lemma shows_nanos s z n : shows s z n -> nanos s = n.
Proof.
  intros [s0 z0 T N|a f z0 k v T N W L]; unfold nanos.
  - rewrite after_point_none; [reflexivity|eapply time_tame, T|exact N].
  - rewrite after_point_some; [apply fraction_writes; assumption|apply time_tame in T; apply Forall_app in T; exact (proj1 T)|exact N].
Qed.
Lemma shows_range s z n : shows s z n -> 0 <= n < 1000000000.
Proof.
  intros [? ? _ _|a f z0 k v _ _ W L]; [lia|]. assert (V : 0 <= v < 10 ^ Z.of_nat k).
  { clear L. induction W as [|k v s0 i c W IH E]; [cbn; lia|]. assert ((i < 10)%nat) by (apply (nth_error_Some figures); congruence). rewrite Nat2Z.inj_succ, Z.pow_succ_r by lia. lia. }
  assert (P : 0 < 10 ^ Z.of_nat (9 - k)) by (apply Z.pow_pos_nonneg; lia). assert (E : 10 ^ Z.of_nat k * 10 ^ Z.of_nat (9 - k) = 1000000000) by (rewrite <- Z.pow_add_r by lia; replace (Z.of_nat k + Z.of_nat (9 - k)) with 9 by lia; reflexivity). nia.
Qed.
Lemma meant_range v z n : meant v z n -> 0 <= n < 1000000000.
Proof. intros [s z0 n0 S|z0 n0 R]; [eapply shows_range, S|exact R]. Qed.
(** A text shows one instant. *)
Lemma shows_one s z n z' n' : shows s z n -> shows s z' n' -> z = z' /\ n = n'.
Proof.
  intros S S'. split.
  - apply shows_time, time_loose, stamp_text_iff in S. apply shows_time, time_loose, stamp_text_iff in S'. congruence.
  - apply shows_nanos in S. apply shows_nanos in S'. congruence.
Qed.
Lemma meant_scan v z n : meant v z n -> scan_time v = Ok (Some (z, n)).
Proof.
  intros [s z0 n0 S|z0 n0 _]; [|reflexivity]. cbn [scan_time]. pose proof (shows_time _ _ _ S) as T. rewrite (trim_Z _ _ _ T), (proj2 (stamp_text_iff s z0) (time_loose _ _ T)), (shows_nanos _ _ _ S).
  destruct s; [|reflexivity]. apply time_text_last in T. destruct T as (s0 & c & E & _). destruct s0; discriminate E.
Qed.

(** ** Writing *)
Lemma format_time_fraction loose z f : in_years z -> fraction_text loose f -> time_text loose (format_time z ++ f) z.
Proof.
  intros R Fr. unfold in_years in R. unfold format_time. set (n := z / 86400). assert (Hn : days_since 0 <= n + unix_days < days_since 10000).
  { change (days_since 0) with (-366). change (days_since 10000) with 3652059. unfold unix_days, n. pose proof (Z.div_mod z 86400). pose proof (Z.mod_pos_bound z 86400). lia. }
  pose proof (day_number_at n) as D. unfold date_at in D. destruct (abs_date (n + unix_days)) as [[y m] d] eqn:E.
  assert (E' : date_at (n + unix_days) = Date y m d) by (unfold date_at; rewrite E; reflexivity). pose proof (year_of _ _ _ _ E' Hn) as Y. destruct (date_at_days (n + unix_days)) as (V & _). rewrite E' in V. destruct V as (M & Da). cbn [dt_year dt_month dt_day] in M, Da.
  pose proof (days_in_pos m y M) as L. set (s := z mod 86400). assert (S0 : 0 <= s < 86400) by (apply Z.mod_pos_bound; lia). assert (Ez : z = n * 86400 + s) by (unfold n, s; pose proof (Z.div_mod z 86400); lia). clearbody n s.
  pose proof (Z.div_mod s 3600). pose proof (Z.mod_pos_bound s 3600). pose proof (Z.div_pos s 3600). assert (s / 3600 < 24) by (apply Z.div_lt_upper_bound; lia).
  set (q := s mod 3600) in *. assert (E6 : s mod 60 = q mod 60). { unfold q. rewrite (Z.div_mod s 3600) at 1 by lia. replace (3600 * (s / 3600) + s mod 3600) with (s mod 3600 + (60 * (s / 3600)) * 60) by lia. apply Z.mod_add. lia. }
  pose proof (Z.div_mod q 60). pose proof (Z.mod_pos_bound q 60). pose proof (Z.div_pos q 60). assert (q / 60 < 60) by (apply Z.div_lt_upper_bound; lia). rewrite E6.
  replace ((pad4 y ++ B"-" ++ pad2 m ++ B"-" ++ pad2 d ++ B" " ++ pad2 (s / 3600) ++ B":" ++ pad2 (q / 60) ++ B":" ++ pad2 (q mod 60)) ++ f)
    with ((pad4 y ++ B"-" ++ pad2 m ++ B"-" ++ pad2 d) ++ B" " ++ (pad2 (s / 3600) ++ B":" ++ pad2 (q / 60)) ++ B":" ++ pad2 (q mod 60) ++ f) by (rewrite <- !app_assoc; reflexivity).
  replace z with (n * 86400 + (s / 3600 * 3600 + q / 60 * 60) + q mod 60) by lia.
  eapply tt_seconds; [|exact D|apply (between_space loose 0); auto| |apply pad2_writes; lia|lia|exact Fr].
  - constructor; [apply pad4_writes; lia|apply pad2_writes; lia|apply pad2_writes; lia|apply valid_date_iff; auto].
  - apply (clock_text_of loose 2); [apply pad2_writes; lia|auto|lia|apply pad2_writes; lia|lia].
Qed.
Lemma figure_point z : figure z <> "."%char.
Proof. intros E. pose proof (digit_of_figure z) as D. rewrite E in D. discriminate D. Qed.
Lemma format_point z : ~ In "."%char (format_time z).
Proof.
  unfold format_time. destruct (abs_date (z / 86400 + unix_days)) as [[y m] d]. unfold pad4, pad2. cbn. intros I.
  repeat (destruct I as [I|I]; [first [discriminate I|exact (figure_point _ I)]|]). exact I.
Qed.
(** The fraction as it is written. *)
Definition rounded (n : Z) : Z := if n mod 1000000 =? 0 then 0 else n / 1000000 * 1000000.
Lemma millis_writes n : 0 <= n < 1000000000 -> writes 3 (n / 1000000) (millis (Z.to_N n)).
Proof.
  intros R. assert (M : 0 <= n / 1000000 < 1000) by (split; [apply Z.div_pos; lia|apply Z.div_lt_upper_bound; lia]).
  unfold millis. assert (E : (Z.to_N n / 1000000)%N = Z.to_N (n / 1000000)) by (rewrite Z2N.inj_div by lia; reflexivity). rewrite E. clear E. revert M. generalize (n / 1000000). intros m M.
  assert (C : forall k, 0 <= k < 1000 -> writes 3 k (map digit [Z.to_N k / 100; Z.to_N k / 10 mod 10; Z.to_N k mod 10]%N)).
  { clear. intros k K.
    assert (P : forall a b c, 0 <= a < 10 -> 0 <= b < 10 -> 0 <= c < 10 -> writes 3 (100 * a + 10 * b + c) [digit (Z.to_N a); digit (Z.to_N b); digit (Z.to_N c)]).
    { intros a b c Ha Hb Hc. assert (F : forall x, 0 <= x < 10 -> digit_of (digit (Z.to_N x)) = Some x).
      { intros x X. assert (x = 0 \/ x = 1 \/ x = 2 \/ x = 3 \/ x = 4 \/ x = 5 \/ x = 6 \/ x = 7 \/ x = 8 \/ x = 9) as Q by lia. repeat (destruct Q as [->|Q]; [reflexivity|]). subst. reflexivity. }
      apply writes_S. exists (10 * a + b), [digit (Z.to_N a); digit (Z.to_N b)], (digit (Z.to_N c)), c. split; [|split; [reflexivity|split; [apply F, Hc|lia]]].
      apply writes2. exists (digit (Z.to_N a)), (digit (Z.to_N b)), a, b. repeat split; auto. }
    specialize (P (k / 100) (k / 10 mod 10) (k mod 10)). cbn [map].
    replace (Z.to_N k / 100)%N with (Z.to_N (k / 100)) by (rewrite Z2N.inj_div by lia; reflexivity).
    replace (Z.to_N k / 10 mod 10)%N with (Z.to_N (k / 10 mod 10)) by (assert (0 <= k / 10) by (apply Z.div_pos; lia); rewrite Z2N.inj_mod, Z2N.inj_div by lia; reflexivity).
    replace (Z.to_N k mod 10)%N with (Z.to_N (k mod 10)) by (rewrite Z2N.inj_mod by lia; reflexivity).
    replace k with (100 * (k / 100) + 10 * (k / 10 mod 10) + k mod 10) at 1.
    - apply P; try (apply Z.mod_pos_bound; lia). split; [apply Z.div_pos; lia|apply Z.div_lt_upper_bound; lia].
    - rewrite (Z.mod_eq (k / 10)), (Z.mod_eq k), Z.div_div by lia. change (10 * 10) with 100. lia. }
  exact (C m M).
Qed.
Lemma literal_names d ty z n : in_years z -> 0 <= n < 1000000000 ->
  exists w, key_literal (fun _ => false) d ty (STime (Some (format_time z, Z.to_N n))) = B"'" ++ w ++ B"'" /\ shows w z (rounded n).
Proof.
  intros R N. unfold key_literal, rounded.
  assert (E : (Z.to_N n mod 1000000 =? 0)%N = (n mod 1000000 =? 0)).
  { change 1000000%N with (Z.to_N 1000000). rewrite <- Z2N.inj_mod by lia. pose proof (Z.mod_pos_bound n 1000000 ltac:(lia)). destruct (Z.eqb_spec (n mod 1000000) 0) as [->|X]; [reflexivity|]. apply N.eqb_neq. lia. }
  rewrite E. destruct (n mod 1000000 =? 0); cbn [negb].
  - exists (format_time z). split; [reflexivity|]. apply shows_seconds; [|apply format_point]. rewrite <- (app_nil_r (format_time z)). apply format_time_fraction; [exact R|constructor].
  - exists (format_time z ++ "."%char :: millis (Z.to_N n)). split; [rewrite <- !app_assoc; reflexivity|]. pose proof (millis_writes n N) as W.
    change 1000000 with (10 ^ Z.of_nat (9 - 3)) at 2. apply shows_fraction; [|apply format_point|exact W|lia].
    apply format_time_fraction; [exact R|]. destruct (writes_first 2 _ _ W) as (a & v & r & Er & Da). rewrite Er. constructor; [auto|apply digit_of_In; eauto|].
    intros x I. eapply writes_figures; [exact W|]. rewrite Er. right. exact I.
Qed.
Lemma rounded_same n : 0 <= n -> rounded n = n <-> n = 0.
Proof.
  intros N. unfold rounded. destruct (Z.eqb_spec (n mod 1000000) 0) as [E|E]; [lia|]. pose proof (Z.div_mod n 1000000 ltac:(lia)). split; [lia|intros ->; reflexivity].
Qed.
