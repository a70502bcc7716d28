(** Facts about the byte-string functions of [GoStr]. *)
From Verif Require Import GoStr.
From Coq Require Import ZifyBool ZifyNat ZifyN.

Lemma ceqb_eq a b : ceqb a b = true <-> a = b.
Proof. apply Ascii.eqb_eq. Qed.
Lemma ceqb_neq a b : ceqb a b = false <-> a <> b.
Proof. apply Ascii.eqb_neq. Qed.
Lemma ceqb_refl a : ceqb a a = true.
Proof. apply Ascii.eqb_refl. Qed.
Lemma ceqb_sym a b : ceqb a b = ceqb b a.
Proof. apply Ascii.eqb_sym. Qed.

Lemma ceqb_spec a b : reflect (a = b) (ceqb a b).
Proof. apply Ascii.eqb_spec. Qed.

Lemma cn_inj a b : cn a = cn b -> a = b.
Proof. unfold cn; intros H. rewrite <- (ascii_nat_embedding a), <- (ascii_nat_embedding b), H. reflexivity. Qed.

Lemma cn_bound a : cn a < 256.
Proof. unfold cn. apply nat_ascii_bounded. Qed.

Lemma beqb_eq a b : beqb a b = true <-> a = b.
Proof.
  revert b; induction a as [|x a IH]; intros [|y b]; cbn [beqb]; split; intros H;
    try reflexivity; try discriminate.
  - apply andb_true_iff in H as [H1 H2]. apply ceqb_eq in H1. apply IH in H2. subst; reflexivity.
  - injection H as -> ->. rewrite ceqb_refl. cbn. apply IH. reflexivity.
Qed.
Lemma beqb_refl a : beqb a a = true.
Proof. apply beqb_eq. reflexivity. Qed.
Lemma beqb_neq a b : beqb a b = false <-> a <> b.
Proof. rewrite <- beqb_eq. destruct (beqb a b); split; intros H; congruence. Qed.
Lemma beqb_spec a b : reflect (a = b) (beqb a b).
Proof. destruct (beqb a b) eqn:E; constructor; [apply beqb_eq | apply beqb_neq]; exact E. Qed.
Lemma beqb_sym a b : beqb a b = beqb b a.
Proof. destruct (beqb_spec a b), (beqb_spec b a); congruence. Qed.

Lemma bytes_eq_dec (a b : bytes) : {a = b} + {a <> b}.
Proof. destruct (beqb_spec a b); [left | right]; assumption. Qed.

Lemma bmem_In s l : bmem s l = true <-> In s l.
Proof.
  unfold bmem. rewrite existsb_exists. split.
  - intros [x [Hx E]]. apply beqb_eq in E. subst. exact Hx.
  - intros H. exists s. split; [exact H | apply beqb_refl].
Qed.
Lemma bmem_not_In s l : bmem s l = false <-> ~ In s l.
Proof. rewrite <- bmem_In. destruct (bmem s l); split; intros H; congruence. Qed.

(** ** Order *)
Lemma bltb_irrefl a : bltb a a = false.
Proof. induction a as [|x a IH]; cbn [bltb]; [reflexivity|]. rewrite Nat.ltb_irrefl. exact IH. Qed.

Lemma bltb_trans a b c : bltb a b = true -> bltb b c = true -> bltb a c = true.
Proof.
  revert b c; induction a as [|x a IH]; intros [|y b] [|z c]; cbn [bltb]; intros H1 H2;
    try discriminate; try reflexivity.
  destruct (Nat.ltb_spec (cn x) (cn y)), (Nat.ltb_spec (cn y) (cn x)),
    (Nat.ltb_spec (cn y) (cn z)), (Nat.ltb_spec (cn z) (cn y)),
    (Nat.ltb_spec (cn x) (cn z)), (Nat.ltb_spec (cn z) (cn x));
    try reflexivity; try discriminate; try lia.
  eapply IH; eassumption.
Qed.

Lemma bltb_total a b : a <> b -> bltb a b = true \/ bltb b a = true.
Proof.
  revert b; induction a as [|x a IH]; intros [|y b] Hn; cbn [bltb]; try congruence; auto.
  destruct (Nat.ltb_spec (cn x) (cn y)); [left; reflexivity|].
  destruct (Nat.ltb_spec (cn y) (cn x)); [right; reflexivity|].
  assert (x = y) by (apply cn_inj; lia). subst y.
  apply IH. congruence.
Qed.

Lemma bltb_asym a b : bltb a b = true -> bltb b a = false.
Proof.
  intros H. destruct (bltb b a) eqn:E; [|reflexivity].
  pose proof (bltb_trans _ _ _ H E) as Hc. rewrite bltb_irrefl in Hc. discriminate.
Qed.

Lemma bltb_app_same p a b : bltb (p ++ a) (p ++ b) = bltb a b.
Proof. induction p as [|x p IH]; cbn [bltb app]; [reflexivity|]. rewrite Nat.ltb_irrefl. exact IH. Qed.

(** ** Prefix / suffix *)
Lemma strip_prefix_Some p s r : strip_prefix p s = Some r <-> s = p ++ r.
Proof.
  revert s; induction p as [|x p IH]; intros s; cbn [strip_prefix app].
  - split; congruence.
  - destruct s as [|y s]; [split; congruence|].
    destruct (ceqb_spec x y) as [->|Hn].
    + rewrite IH. split; intros H; [subst | injection H as ->]; reflexivity.
    + split; congruence.
Qed.

Lemma strip_prefix_app p r : strip_prefix p (p ++ r) = Some r.
Proof. apply strip_prefix_Some. reflexivity. Qed.

Lemma has_prefix_iff s p : has_prefix s p = true <-> exists r, s = p ++ r.
Proof.
  unfold has_prefix. destruct (strip_prefix p s) as [r|] eqn:E.
  - apply strip_prefix_Some in E. split; [intros _; exists r; exact E | reflexivity].
  - split; [discriminate|]. intros [r Hr]. apply strip_prefix_Some in Hr. congruence.
Qed.

Lemma has_prefix_app p r : has_prefix (p ++ r) p = true.
Proof. apply has_prefix_iff. exists r. reflexivity. Qed.

Lemma has_suffix_iff s p : has_suffix s p = true <-> exists r, s = r ++ p.
Proof.
  unfold has_suffix. rewrite has_prefix_iff. split; intros [r Hr].
  - exists (rev r). rewrite <- (rev_involutive s), Hr, rev_app_distr, rev_involutive. reflexivity.
  - exists (rev r). rewrite Hr, rev_app_distr. reflexivity.
Qed.

Lemma has_suffix_app r p : has_suffix (r ++ p) p = true.
Proof. apply has_suffix_iff. exists r. reflexivity. Qed.

Lemma trim_prefix_app p r : trim_prefix (p ++ r) p = r.
Proof. unfold trim_prefix. rewrite strip_prefix_app. reflexivity. Qed.

Lemma trim_suffix_app r p : trim_suffix (r ++ p) p = r.
Proof. unfold trim_suffix. rewrite rev_app_distr, strip_prefix_app, rev_involutive. reflexivity. Qed.

Lemma trim_suffix_none s p : has_suffix s p = false -> trim_suffix s p = s.
Proof.
  unfold has_suffix, has_prefix, trim_suffix.
  destruct (strip_prefix (rev p) (rev s)); [discriminate | reflexivity].
Qed.

(** ** Cutting *)
Lemma cut_byte_Some c s a b : cut_byte c s = Some (a, b) -> s = a ++ c :: b /\ ~ In c a.
Proof.
  revert a b; induction s as [|x s IH]; intros a b; cbn [cut_byte]; [discriminate|].
  destruct (ceqb_spec x c) as [->|Hn].
  - intros [= <- <-]. split; [reflexivity | intros []].
  - destruct (cut_byte c s) as [[a' b']|] eqn:E; [|discriminate].
    intros [= <- <-]. destruct (IH _ _ eq_refl) as [-> Hni].
    split; [reflexivity|]. intros [->|Hi]; [apply Hn; reflexivity | apply Hni; exact Hi].
Qed.

Lemma cut_byte_None c s : cut_byte c s = None <-> ~ In c s.
Proof.
  induction s as [|x s IH]; cbn [cut_byte In].
  - split; [intros _ [] | reflexivity].
  - destruct (ceqb_spec x c) as [->|Hn].
    + split; [discriminate | intros H; exfalso; apply H; left; reflexivity].
    + destruct (cut_byte c s) as [[a b]|] eqn:E.
      * split; [discriminate|]. intros H. exfalso.
        assert (Hni : ~ In c s) by (intros Hi; apply H; right; exact Hi).
        apply IH in Hni. discriminate.
      * split; [|reflexivity]. intros _ [->|Hi]; [apply Hn; reflexivity|].
        apply (proj1 IH); [reflexivity | exact Hi].
Qed.

Lemma cut_byte_app c a b : ~ In c a -> cut_byte c (a ++ c :: b) = Some (a, b).
Proof.
  induction a as [|x a IH]; cbn [cut_byte app]; intros Hn.
  - rewrite ceqb_refl. reflexivity.
  - destruct (ceqb_spec x c) as [->|Hx]; [exfalso; apply Hn; left; reflexivity|].
    rewrite IH; [reflexivity|]. intros Hi. apply Hn. right. exact Hi.
Qed.

(** ** Joining *)
Lemma join_cons sep x l : l <> [] -> join sep (x :: l) = x ++ sep ++ join sep l.
Proof. destruct l; [congruence | reflexivity]. Qed.

Lemma split_byte_nonempty c s : split_byte c s <> [].
Proof.
  destruct s as [|x s]; cbn [split_byte]; [discriminate|].
  destruct (ceqb x c); [discriminate|]. destruct (split_byte c s); discriminate.
Qed.

Lemma join_split_byte c s : join [c] (split_byte c s) = s.
Proof.
  induction s as [|x s IH]; cbn [split_byte]; [reflexivity|].
  destruct (ceqb_spec x c) as [->|Hn].
  - rewrite join_cons by apply split_byte_nonempty. rewrite IH. reflexivity.
  - destruct (split_byte c s) as [|w ws] eqn:E; [exfalso; eapply split_byte_nonempty; exact E|].
    rewrite <- IH. destruct ws; reflexivity.
Qed.

(** ** Decimal numbers *)

Lemma N_ascii_digit n : (n < 10)%N -> N_of_ascii (digit n) = (48 + n)%N.
Proof. intros H. unfold digit. apply N_ascii_embedding. lia. Qed.

Lemma cn_N c : cn c = N.to_nat (N_of_ascii c).
Proof. reflexivity. Qed.

Lemma digit_is_digit n : (n < 10)%N -> is_digit (digit n) = true.
Proof.
  intros H. unfold is_digit. rewrite !cn_N, N_ascii_digit by exact H. lia.
Qed.

Lemma digit_val_digit n : (n < 10)%N -> digit_val (digit n) = n.
Proof. intros H. unfold digit_val. rewrite N_ascii_digit by exact H. lia. Qed.

Lemma dec_N_acc_app acc s c :
  dec_N_acc acc (s ++ [c]) =
  match dec_N_acc acc s with
  | Some v => if is_digit c then Some (v * 10 + digit_val c)%N else None
  | None => None
  end.
Proof.
  revert acc; induction s as [|x s IH]; intros acc; cbn [app dec_N_acc]; [reflexivity|].
  destruct (is_digit x); [apply IH | reflexivity].
Qed.

(** Value of a digit list scanned with accumulator: positional form. *)
Lemma dec_N_acc_digits acc s v :
  dec_N_acc 0 s = Some v ->
  dec_N_acc acc s = Some (acc * 10 ^ N.of_nat (List.length s) + v)%N.
Proof.
  revert acc v; induction s as [|c s IH] using rev_ind; intros acc v.
  - cbn. intros [= <-]. f_equal. lia.
  - rewrite !dec_N_acc_app, app_length. cbn [List.length].
    destruct (dec_N_acc 0 s) as [w|]; [|discriminate].
    rewrite (IH acc w eq_refl).
    destruct (is_digit c); [|discriminate]. intros [= <-]. f_equal.
    replace (N.of_nat (List.length s + 1)) with (N.succ (N.of_nat (List.length s))) by lia.
    rewrite N.pow_succ_r'. lia.
Qed.

Lemma N_dec_aux_spec fuel n acc v :
  (n < 2 ^ N.of_nat fuel)%N ->
  dec_N_acc 0 acc = Some v ->
  fuel <> O ->
  dec_N_acc 0 (N_dec_aux fuel n acc) = Some (n * 10 ^ N.of_nat (List.length acc) + v)%N.
Proof.
  revert n acc v; induction fuel as [|f IH]; intros n acc v Hb Hv Hf; [congruence|].
  cbn [N_dec_aux].
  assert (Hm : (n mod 10 < 10)%N) by (apply N.mod_lt; lia).
  assert (Hacc : dec_N_acc 0 (digit (n mod 10) :: acc)
                 = Some ((n mod 10) * 10 ^ N.of_nat (List.length acc) + v)%N).
  { cbn [dec_N_acc]. rewrite digit_is_digit by exact Hm. rewrite digit_val_digit by exact Hm.
    rewrite N.mul_0_l, N.add_0_l. apply dec_N_acc_digits. exact Hv. }
  assert (Hdm : n = (10 * (n / 10) + n mod 10)%N) by (apply N.div_mod; lia).
  destruct (N.eqb_spec (n / 10) 0) as [Hz|Hz].
  - rewrite Hacc. f_equal. rewrite Hz in Hdm. replace (n mod 10)%N with n by lia. lia.
  - rewrite (IH (n / 10)%N _ ((n mod 10) * 10 ^ N.of_nat (List.length acc) + v)%N); [| |exact Hacc|].
    + f_equal. cbn [List.length].
      replace (N.of_nat (S (List.length acc))) with (N.succ (N.of_nat (List.length acc))) by lia.
      rewrite N.pow_succ_r'.
      set (P := (10 ^ N.of_nat (List.length acc))%N). clearbody P.
      set (q := (n / 10)%N) in *. set (r := (n mod 10)%N) in *. clearbody q r. subst n. lia.
    + replace (N.of_nat (S f)) with (N.succ (N.of_nat f)) in Hb by lia.
      rewrite N.pow_succ_r' in Hb. lia.
    + intros ->. cbn in Hb.
      assert (n = 1 \/ n = 0)%N as [-> | ->] by lia; apply Hz; reflexivity.
Qed.

Lemma N_dec_nonempty n : N_dec n <> [].
Proof.
  unfold N_dec. cbn [N_dec_aux].
  assert (H : forall f m acc, acc <> [] -> N_dec_aux f m acc <> []).
  { induction f as [|f IH]; intros m acc Ha; cbn [N_dec_aux]; [exact Ha|].
    destruct (m / 10 =? 0)%N; [discriminate|]. apply IH. discriminate. }
  destruct (n / 10 =? 0)%N; [discriminate|]. apply H. discriminate.
Qed.

(** Decimal round trip: reading back what FormatUint prints. *)
Lemma dec_N_N_dec n : dec_N (N_dec n) = Some n.
Proof.
  unfold dec_N. destruct (N_dec n) as [|c s] eqn:E; [exfalso; eapply N_dec_nonempty; exact E|].
  rewrite <- E. unfold N_dec.
  rewrite (N_dec_aux_spec _ _ _ 0%N).
  - f_equal. cbn. lia.
  - replace (N.of_nat (S (N.to_nat (N.log2 n)))) with (N.succ (N.log2 n)) by lia.
    destruct n as [|p]; [cbn; lia|]. apply N.log2_spec. lia.
  - reflexivity.
  - discriminate.
Qed.

Lemma N_dec_inj a b : N_dec a = N_dec b -> a = b.
Proof.
  intros H. assert (Hs : Some a = Some b) by (rewrite <- !dec_N_N_dec, H; reflexivity).
  congruence.
Qed.

Lemma N_dec_digits n : Forall (fun c => is_digit c = true) (N_dec n).
Proof.
  unfold N_dec. generalize (S (N.to_nat (N.log2 n))) as f. intros f.
  assert (H : forall acc m, Forall (fun c => is_digit c = true) acc ->
              Forall (fun c => is_digit c = true) (N_dec_aux f m acc)).
  { induction f as [|f IH]; intros acc m Ha; cbn [N_dec_aux]; [exact Ha|].
    assert (Hc : Forall (fun c => is_digit c = true) (digit (m mod 10) :: acc)).
    { constructor; [apply digit_is_digit; apply N.mod_lt; lia | exact Ha]. }
    destruct (m / 10 =? 0)%N; [exact Hc | apply IH; exact Hc]. }
  apply H. constructor.
Qed.
