(** Facts about days: the formulas of Go count the days of the calendar. *)
From Coq Require Import Lia ZifyBool Znumtheory.
From Verif Require Import GoStr ModelStamp SpecStamp.
Open Scope Z_scope.

Lemma is_leap_spec y : is_leap y = true <-> leap_year y.
Proof.
  unfold is_leap, leap_year. rewrite andb_true_iff, orb_true_iff, negb_true_iff, !Z.eqb_eq, Z.eqb_neq. rewrite !Z.mod_divide by lia. reflexivity.
Qed.
(** Years in parts. *)
Lemma year_parts y : exists a b c e, y - 1 = 400 * a + 100 * b + 4 * c + e /\ 0 <= b < 4 /\ 0 <= c < 25 /\ 0 <= e < 4.
Proof.
  exists ((y - 1) / 400), ((y - 1) mod 400 / 100), ((y - 1) mod 400 mod 100 / 4), ((y - 1) mod 400 mod 100 mod 4).
  pose proof (Z.div_mod (y - 1) 400). pose proof (Z.mod_pos_bound (y - 1) 400). set (u := (y - 1) mod 400) in *.
  pose proof (Z.div_mod u 100). pose proof (Z.mod_pos_bound u 100). set (v := u mod 100) in *.
  pose proof (Z.div_mod v 4). pose proof (Z.mod_pos_bound v 4). pose proof (Z.div_pos u 100). pose proof (Z.div_pos v 4).
  assert (u / 100 < 4) by (apply Z.div_lt_upper_bound; lia). assert (v / 4 < 25) by (apply Z.div_lt_upper_bound; lia). lia.
Qed.
Lemma days_since_parts y a b c e : y - 1 = 400 * a + 100 * b + 4 * c + e -> 0 <= b < 4 -> 0 <= c < 25 -> 0 <= e < 4 ->
  days_since y = 146097 * a + 36524 * b + 1461 * c + 365 * e.
Proof.
  intros E B C F. unfold days_since. cbv zeta. rewrite E.
  assert (X : (400 * a + 100 * b + 4 * c + e) / 400 = a) by (symmetry; apply Z.div_unique with (100 * b + 4 * c + e); lia).
  assert (Y : (400 * a + 100 * b + 4 * c + e) mod 400 = 100 * b + 4 * c + e) by (symmetry; apply Z.mod_unique with a; lia). rewrite X, Y.
  assert (X1 : (100 * b + 4 * c + e) / 100 = b) by (symmetry; apply Z.div_unique with (4 * c + e); lia).
  assert (Y1 : (100 * b + 4 * c + e) mod 100 = 4 * c + e) by (symmetry; apply Z.mod_unique with b; lia). rewrite X1, Y1.
  assert (X2 : (4 * c + e) / 4 = c) by (symmetry; apply Z.div_unique with e; lia).
  assert (Y2 : (4 * c + e) mod 4 = e) by (symmetry; apply Z.mod_unique with c; lia). rewrite X2, Y2. reflexivity.
Qed.
Lemma is_leap_parts y a b c e : y - 1 = 400 * a + 100 * b + 4 * c + e -> 0 <= b < 4 -> 0 <= c < 25 -> 0 <= e < 4 ->
  is_leap y = (e =? 3) && (negb (c =? 24) || (b =? 3)).
Proof.
  intros E B C F. assert (Y : y = 400 * a + 100 * b + 4 * c + e + 1) by lia. clear E. subst y. unfold is_leap.
  destruct (Z.eqb_spec e 3) as [->|N]; cbn [andb].
  - assert ((400 * a + 100 * b + 4 * c + 3 + 1) mod 4 = 0) as -> by (symmetry; apply Z.mod_unique with (100 * a + 25 * b + c + 1); lia). cbn [Z.eqb andb].
    destruct (Z.eqb_spec c 24) as [->|N]; cbn [negb orb].
    + assert ((400 * a + 100 * b + 4 * 24 + 3 + 1) mod 100 = 0) as -> by (symmetry; apply Z.mod_unique with (4 * a + b + 1); lia). cbn [Z.eqb negb orb].
      destruct (Z.eqb_spec b 3) as [->|N].
      * assert ((400 * a + 100 * 3 + 4 * 24 + 3 + 1) mod 400 = 0) as -> by (symmetry; apply Z.mod_unique with (a + 1); lia). reflexivity.
      * assert ((400 * a + 100 * b + 4 * 24 + 3 + 1) mod 400 = 100 * b + 100) as -> by (symmetry; apply Z.mod_unique with a; lia). lia.
    + assert ((400 * a + 100 * b + 4 * c + 3 + 1) mod 100 = 4 * c + 4) as -> by (symmetry; apply Z.mod_unique with (4 * a + b); lia). lia.
  - assert ((400 * a + 100 * b + 4 * c + e + 1) mod 4 = e + 1) as -> by (symmetry; apply Z.mod_unique with (100 * a + 25 * b + c); lia). lia.
Qed.
Lemma days_since_next y : days_since (y + 1) = days_since y + 365 + (if is_leap y then 1 else 0).
Proof.
  destruct (year_parts y) as (a & b & c & e & E & Hb & C & F). rewrite (days_since_parts y a b c e E Hb C F), (is_leap_parts y a b c e E Hb C F).
  destruct (Z.eqb_spec e 3) as [->|N]; cbn [andb]; [|rewrite (days_since_parts (y + 1) a b c (e + 1)) by lia; lia].
  destruct (Z.eqb_spec c 24) as [->|N]; cbn [negb orb]; [|rewrite (days_since_parts (y + 1) a b (c + 1) 0) by lia; lia].
  destruct (Z.eqb_spec b 3) as [->|N]; [rewrite (days_since_parts (y + 1) (a + 1) 0 0 0) by lia; lia|rewrite (days_since_parts (y + 1) a (b + 1) 0 0) by lia; lia].
Qed.

(** ** Months *)
Lemma month_cases m : 1 <= m <= 12 -> m = 1 \/ m = 2 \/ m = 3 \/ m = 4 \/ m = 5 \/ m = 6 \/ m = 7 \/ m = 8 \/ m = 9 \/ m = 10 \/ m = 11 \/ m = 12.
Proof. lia. Qed.
Ltac months H := apply month_cases in H; repeat (destruct H as [->|H]; [|]); try subst.
Lemma month_days_range y m n : month_days y m n -> 1 <= m <= 12.
Proof. intros [? ? I|? ? I| |]; cbn in I || idtac; lia. Qed.
Lemma month_days_in y m n : 1 <= m <= 12 -> (month_days y m n <-> n = days_in m y).
Proof.
  intros H. split.
  - intros [? ? I|? ? I|? L|? L].
    + cbn in I. repeat (destruct I as [<-|I]; [reflexivity|]). destruct I.
    + cbn in I. repeat (destruct I as [<-|I]; [reflexivity|]). destruct I.
    + apply is_leap_spec in L. unfold days_in. rewrite L. reflexivity.
    + unfold days_in. destruct (is_leap y0) eqn:E; [exfalso; apply L, is_leap_spec, E|reflexivity].
  - intros ->. unfold days_in. destruct (is_leap y) eqn:E.
    + apply is_leap_spec in E. apply month_cases in H. repeat (destruct H as [->|H]; [first [apply md_long; cbn; tauto|apply md_short; cbn; tauto|apply md_leap; exact E]|]). subst. apply md_long. cbn. tauto.
    + assert (N : ~ leap_year y) by (intros L; apply is_leap_spec in L; congruence). apply month_cases in H.
      repeat (destruct H as [->|H]; [first [apply md_long; cbn; tauto|apply md_short; cbn; tauto|apply md_plain; exact N]|]). subst. apply md_long. cbn. tauto.
Qed.
Lemma valid_date_iff y m d : valid_date (Date y m d) <-> 1 <= m <= 12 /\ 1 <= d <= days_in m y.
Proof.
  unfold valid_date. cbn [dt_year dt_month dt_day]. split.
  - intros (n & M & D). pose proof (month_days_range _ _ _ M) as R. split; [exact R|]. apply month_days_in in M; [|exact R]. subst. exact D.
  - intros (R & D). exists (days_in m y). split; [apply month_days_in; [exact R|reflexivity]|exact D].
Qed.
Lemma month_next y m : 1 <= m < 12 -> days_before m + (if is_leap y && (3 <=? m + 1) then 1 else 0) = days_before (m - 1) + (if is_leap y && (3 <=? m) then 1 else 0) + days_in m y.
Proof.
  intros H. unfold days_in. assert (R : 1 <= m <= 12) by lia. apply month_cases in R.
  repeat (destruct R as [->|R]; [destruct (is_leap y); reflexivity|]). lia.
Qed.
Definition days (x : date) : Z := date_days (dt_year x) (dt_month x) (dt_day x).
Definition valid (x : date) : Prop := 1 <= dt_month x <= 12 /\ 1 <= dt_day x <= days_in (dt_month x) (dt_year x).
Lemma days_in_pos m y : 1 <= m <= 12 -> 28 <= days_in m y <= 31.
Proof. intros H. unfold days_in. apply month_cases in H. destruct (is_leap y); repeat (destruct H as [->|H]; [vm_compute; split; discriminate|]); subst; vm_compute; split; discriminate. Qed.
Lemma next_valid x x' : next_day x x' -> valid x /\ valid x' /\ days x' = days x + 1.
Proof.
  unfold valid, days. intros [y m d V L|y m d M L|y]; cbn [dt_year dt_month dt_day].
  - apply valid_date_iff in V. unfold date_days. lia.
  - pose proof (month_days_range _ _ _ M) as R. apply month_days_in in M; [|exact R]. subst d. pose proof (days_in_pos m y R). pose proof (days_in_pos (m + 1) y ltac:(lia)).
    split; [lia|]. split; [lia|]. unfold date_days. replace (m + 1 - 1) with m by lia. pose proof (month_next y m ltac:(lia)). lia.
  - split; [split; [lia|vm_compute; split; discriminate]|]. split; [split; [lia|vm_compute; split; discriminate]|]. unfold date_days. rewrite days_since_next.
    change (days_before (1 - 1)) with 0. change (days_before (12 - 1)) with 334. change (3 <=? 1) with false. change (3 <=? 12) with true. rewrite andb_true_r, andb_false_r. destruct (is_leap y); lia.
Qed.
Lemma day_number_days x n : day_number x n -> valid x /\ days x = n + unix_days.
Proof.
  induction 1 as [|x x' n _ (V & E) N|x x' n _ (V & E) N].
  - split; [split; [vm_compute; split; discriminate|vm_compute; split; discriminate]|vm_compute; reflexivity].
  - apply next_valid in N. destruct N as (_ & V' & D). split; [exact V'|lia].
  - apply next_valid in N. destruct N as (V' & _ & D). split; [exact V'|lia].
Qed.

(** ** Days as dates *)
Definition before (leap : bool) (m : Z) : Z := days_before (m - 1) + (if leap && (3 <=? m) then 1 else 0).
Definition length_of (leap : bool) (m : Z) : Z := if (m =? 2) && leap then 29 else days_before m - days_before (m - 1).
Definition month_check (leap : bool) (yday : Z) : bool :=
  let (m, d) := month_day leap yday in (1 <=? m) && (m <=? 12) && (1 <=? d) && (d <=? length_of leap m) && (before leap m + d - 1 =? yday).
Lemma month_checked : forallb (fun k => month_check true (Z.of_nat k)) (seq 0 366) && forallb (fun k => month_check false (Z.of_nat k)) (seq 0 365) = true.
Proof. vm_compute. reflexivity. Qed.
Lemma month_day_spec (leap : bool) yday m d : 0 <= yday < 365 + (if leap then 1 else 0) -> month_day leap yday = (m, d) -> 1 <= m <= 12 /\ 1 <= d <= length_of leap m /\ before leap m + d - 1 = yday.
Proof.
  intros R E. assert (X : month_check leap yday = true).
  { pose proof month_checked as C. apply andb_true_iff in C. destruct C as (C1 & C2). rewrite forallb_forall in C1, C2. rewrite <- (Z2Nat.id yday) by lia.
    destruct leap; [apply C1|apply C2]; apply in_seq; lia. }
  unfold month_check in X. rewrite E in X. lia.
Qed.
Lemma before_next leap m : 1 <= m < 12 -> before leap (m + 1) = before leap m + length_of leap m.
Proof.
  intros H. unfold before, length_of. replace (m + 1 - 1) with m by lia. assert (R : 1 <= m <= 12) by lia. apply month_cases in R.
  repeat (destruct R as [->|R]; [destruct leap; reflexivity|]). lia.
Qed.
Lemma length_pos leap m : 1 <= m <= 12 -> 28 <= length_of leap m <= 31.
Proof. intros H. unfold length_of. apply month_cases in H. destruct leap; repeat (destruct H as [->|H]; [vm_compute; split; discriminate|]); subst; vm_compute; split; discriminate. Qed.
Lemma before_mono leap m m' : 1 <= m -> m < m' -> m' <= 12 -> before leap m + length_of leap m <= before leap m'.
Proof.
  intros H L R. assert (X : forall k, 0 <= k -> m + 1 + k <= 12 -> before leap m + length_of leap m <= before leap (m + 1 + k)).
  { apply (natlike_ind (fun k => m + 1 + k <= 12 -> before leap m + length_of leap m <= before leap (m + 1 + k))).
    - intros _. replace (m + 1 + 0) with (m + 1) by lia. rewrite before_next by lia. lia.
    - intros k K IH B. specialize (IH ltac:(lia)). replace (m + 1 + Z.succ k) with (m + 1 + k + 1) by lia. rewrite before_next by lia. pose proof (length_pos leap (m + 1 + k) ltac:(lia)). lia. }
  specialize (X (m' - m - 1) ltac:(lia) ltac:(lia)). replace (m + 1 + (m' - m - 1)) with m' in X by lia. exact X.
Qed.
Lemma days_before_form y m d : date_days y m d = days_since y + before (is_leap y) m + d - 1.
Proof. unfold date_days, before. lia. Qed.
Lemma length_days_in y m : length_of (is_leap y) m = days_in m y.
Proof. reflexivity. Qed.
Lemma year_day y m d : 1 <= m <= 12 -> 1 <= d <= days_in m y -> days_since y <= date_days y m d < days_since (y + 1).
Proof.
  intros R D. rewrite days_before_form, days_since_next. rewrite <- length_days_in in D.
  assert (B12 : before (is_leap y) 12 + length_of (is_leap y) 12 = 365 + (if is_leap y then 1 else 0)) by (destruct (is_leap y); reflexivity).
  assert (B1 : before (is_leap y) 1 = 0) by (destruct (is_leap y); reflexivity).
  assert (0 <= before (is_leap y) m). { destruct (Z.eq_dec m 1) as [->|N]; [lia|]. pose proof (before_mono (is_leap y) 1 m ltac:(lia) ltac:(lia) ltac:(lia)). pose proof (length_pos (is_leap y) 1 ltac:(lia)). lia. }
  destruct (Z.eq_dec m 12) as [->|N]; [lia|]. pose proof (before_mono (is_leap y) m 12 ltac:(lia) ltac:(lia) ltac:(lia)). pose proof (length_pos (is_leap y) 12 ltac:(lia)). lia.
Qed.
Lemma days_since_mono y y' : y <= y' -> days_since y <= days_since y'.
Proof.
  intros L. replace y' with (y + (y' - y)) by lia. apply (natlike_ind (fun k => days_since y <= days_since (y + k))); [rewrite Z.add_0_r; lia| |lia].
  intros k K IH. replace (y + Z.succ k) with (y + k + 1) by lia. rewrite days_since_next. destruct (is_leap (y + k)); lia.
Qed.
Lemma days_inj x x' : valid x -> valid x' -> days x = days x' -> x = x'.
Proof.
  destruct x as [y m d], x' as [y' m' d']. unfold valid, days. cbn [dt_year dt_month dt_day]. intros (R & D) (R' & D') E.
  pose proof (year_day y m d R D) as Y. pose proof (year_day y' m' d' R' D') as Y'.
  assert (y = y'). { destruct (Z.lt_trichotomy y y') as [L|[L|L]]; [|exact L|]; [pose proof (days_since_mono (y + 1) y' ltac:(lia))|pose proof (days_since_mono (y' + 1) y ltac:(lia))]; lia. }
  subst y'. rewrite !days_before_form in E. rewrite <- !length_days_in in D, D'.
  assert (m = m'). { destruct (Z.lt_trichotomy m m') as [L|[L|L]]; [|exact L|]; [pose proof (before_mono (is_leap y) m m' ltac:(lia) L ltac:(lia))|pose proof (before_mono (is_leap y) m' m ltac:(lia) L ltac:(lia))]; lia. }
  subst m'. f_equal. lia.
Qed.
Definition date_at (n : Z) : date := let '(y, m, d) := abs_date n in Date y m d.
Lemma date_at_days n : valid (date_at n) /\ days (date_at n) = n.
Proof.
  unfold date_at, abs_date. cbv zeta.
  set (n400 := n / 146097). set (d0 := n - 146097 * n400). assert (H0 : 0 <= d0 < 146097) by (unfold d0, n400; pose proof (Z.div_mod n 146097); pose proof (Z.mod_pos_bound n 146097); lia).
  assert (En : n = 146097 * n400 + d0) by (unfold d0; lia). clearbody d0. clearbody n400. subst n.
  set (a := d0 / 36524). assert (Ha : 36524 * a <= d0 < 36524 * a + 36524) by (unfold a; pose proof (Z.div_mod d0 36524); pose proof (Z.mod_pos_bound d0 36524); lia). clearbody a.
  assert (Ra : 0 <= a <= 4) by lia. set (b := a - a / 4). assert (Hb : b = if a =? 4 then 3 else a) by (unfold b; assert (C : a = 0 \/ a = 1 \/ a = 2 \/ a = 3 \/ a = 4) by lia; repeat (destruct C as [->|C]; [reflexivity|]); subst; reflexivity).
  clearbody b. set (d1 := d0 - 36524 * b). assert (H1 : 0 <= d1 < 36524 + (if b =? 3 then 1 else 0)) by (unfold d1; destruct (Z.eqb_spec a 4); subst b; [change (3 =? 3) with true; cbv iota; lia|destruct (Z.eqb_spec a 3); lia]). assert (E0 : d0 = 36524 * b + d1) by (unfold d1; lia). assert (Rb : 0 <= b < 4) by (destruct (Z.eqb_spec a 4); lia). clearbody d1. subst d0. clear Ha Ra Hb a.
  set (c := d1 / 1461). assert (Hc : 1461 * c <= d1 < 1461 * c + 1461) by (unfold c; pose proof (Z.div_mod d1 1461); pose proof (Z.mod_pos_bound d1 1461); lia). clearbody c.
  set (d2 := d1 - 1461 * c). assert (E1 : d1 = 1461 * c + d2) by (unfold d2; lia). clearbody d2. subst d1. assert (Rc : 0 <= c < 25) by (destruct (b =? 3); lia).
  set (g := d2 / 365). assert (Hg : 365 * g <= d2 < 365 * g + 365) by (unfold g; pose proof (Z.div_mod d2 365); pose proof (Z.mod_pos_bound d2 365); lia). clearbody g.
  assert (Rg : 0 <= g <= 4) by lia. set (e := g - g / 4). assert (He : e = if g =? 4 then 3 else g) by (unfold e; assert (C : g = 0 \/ g = 1 \/ g = 2 \/ g = 3 \/ g = 4) by lia; repeat (destruct C as [->|C]; [reflexivity|]); subst; reflexivity).
  clearbody e. set (d3 := d2 - 365 * e). assert (E2 : d2 = 365 * e + d3) by (unfold d3; lia). assert (Re : 0 <= e < 4) by (destruct (Z.eqb_spec g 4); lia).
  set (y := 400 * n400 + 100 * b + 4 * c + e + 1). assert (Ey : y - 1 = 400 * n400 + 100 * b + 4 * c + e) by (unfold y; lia). clearbody y.
  pose proof (is_leap_parts y n400 b c e Ey Rb Rc Re) as Ly. pose proof (days_since_parts y n400 b c e Ey Rb Rc Re) as Dy.
  assert (H3 : 0 <= d3 < 365 + (if is_leap y then 1 else 0)). { rewrite Ly. clear Ly Dy Ey. unfold d3 in *. destruct (Z.eqb_spec g 4); destruct (Z.eqb_spec e 3); destruct (Z.eqb_spec c 24); destruct (Z.eqb_spec b 3); cbn [negb andb orb]; lia. }
  clearbody d3. subst d2. destruct (month_day (is_leap y) d3) as [m d] eqn:M. destruct (month_day_spec _ _ _ _ H3 M) as (Rm & Rd & Q).
  unfold valid, days. cbn [dt_year dt_month dt_day]. split; [split; [exact Rm|rewrite <- length_days_in; exact Rd]|]. rewrite days_before_form. lia.
Qed.
Lemma date_at_unique x : valid x -> date_at (days x) = x.
Proof. intros V. destruct (date_at_days (days x)) as (V' & E). apply days_inj; assumption. Qed.
(** Every day has a next one. *)
Lemma has_next x : valid x -> exists x', next_day x x'.
Proof.
  destruct x as [y m d]. intros (R & D). cbn [dt_year dt_month dt_day] in *. destruct (Z.eq_dec d (days_in m y)) as [->|N].
  - destruct (Z.eq_dec m 12) as [->|M].
    + exists (Date (y + 1) 1 1). change (days_in 12 y) with 31. constructor.
    + exists (Date y (m + 1) 1). apply nd_month; [apply month_days_in; [exact R|reflexivity]|lia].
  - exists (Date y m (d + 1)). apply nd_day; [apply valid_date_iff; lia|lia].
Qed.
Lemma next_at n : next_day (date_at n) (date_at (n + 1)).
Proof.
  destruct (date_at_days n) as (V & E). destruct (has_next _ V) as (x' & N). destruct (next_valid _ _ N) as (_ & V' & D). rewrite E in D.
  rewrite <- D, date_at_unique by exact V'. exact N.
Qed.
Lemma day_number_at n : day_number (date_at (n + unix_days)) n.
Proof.
  assert (P : forall k, 0 <= k -> day_number (date_at (k + unix_days)) k).
  { apply natlike_ind; [change (date_at (0 + unix_days)) with (Date 1970 1 1); constructor|]. intros k _ IH. replace (Z.succ k) with (k + 1) by lia.
    apply (dn_next (date_at (k + unix_days))); [exact IH|]. replace (k + 1 + unix_days) with (k + unix_days + 1) by lia. apply next_at. }
  assert (M : forall k, 0 <= k -> day_number (date_at (- k + unix_days)) (- k)).
  { apply natlike_ind; [change (date_at (- 0 + unix_days)) with (Date 1970 1 1); constructor|]. intros k _ IH. replace (- Z.succ k) with (- k - 1) by lia.
    apply (dn_previous _ (date_at (- k + unix_days))); [exact IH|]. pose proof (next_at (- k - 1 + unix_days)) as X. replace (- k - 1 + unix_days + 1) with (- k + unix_days) in X by lia. exact X. }
  destruct (Z_le_gt_dec 0 n) as [L|L]; [apply P, L|]. replace n with (- (- n)) by lia. apply M. lia.
Qed.
Lemma day_number_iff x n : day_number x n <-> valid x /\ days x = n + unix_days.
Proof.
  split; [apply day_number_days|]. intros (V & E). rewrite <- (date_at_unique x V), E. apply day_number_at.
Qed.
