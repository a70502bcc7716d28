(** Facts about the texts that ModelAnnotate builds. *)
From Coq Require Import ZifyBool ZifyNat.
From Verif Require Import GoStr GoStrFacts ArrayFacts ModelVersion ModelAnnotate SpecAnnotate.

Definition plain (s : bytes) : Prop := ~ In percent s.
Lemma ceqb_t : forall a b, ceqb a b = true <-> a = b.
Proof. intros. apply Ascii.eqb_eq. Qed.
Lemma plain_cons : forall c s, plain (c :: s) -> ceqb c percent = false /\ plain s.
Proof.
  intros c s H. split.
  - destruct (ceqb c percent) eqn:E; [|reflexivity]. apply ceqb_t in E. subst. destruct H. left. reflexivity.
  - intros I. apply H. right. exact I.
Qed.
Lemma plain_app : forall a b, plain (a ++ b) <-> plain a /\ plain b.
Proof. intros. unfold plain. rewrite in_app_iff. tauto. Qed.
Lemma digits_plain : forall s, Forall (fun c => is_digit c = true) s -> plain s.
Proof. intros s F I. rewrite Forall_forall in F. specialize (F _ I). vm_compute in F. discriminate. Qed.

Lemma printf_plain : forall s fuel, plain s -> List.length s <= fuel -> printf fuel s None = Some s.
Proof.
  induction s as [|c s IH]; intros [|fuel] P L; cbn [List.length] in L; try reflexivity; try lia.
  destruct (plain_cons _ _ P) as (E & P'). cbn [printf]. rewrite E, (IH fuel P' ltac:(lia)). reflexivity.
Qed.
Lemma printf_front : forall a fuel f arg, plain a -> List.length a <= fuel ->
  printf fuel (a ++ f) arg = option_map (app a) (printf (fuel - List.length a) f arg).
Proof.
  induction a as [|c a IH]; intros fuel f arg P L; cbn [List.length app] in *.
  - rewrite Nat.sub_0_r. destruct (printf fuel f arg); reflexivity.
  - destruct fuel as [|fuel]; [lia|]. destruct (plain_cons _ _ P) as (E & P'). cbn [printf]. rewrite E, (IH fuel f arg P') by lia.
    cbn [Nat.sub]. destruct (printf (fuel - List.length a) f arg); reflexivity.
Qed.
Lemma printf_w : forall fuel f arg, List.length f + 1 <= fuel ->
  printf fuel (B"%w" ++ f) (Some arg) = option_map (app arg) (printf (fuel - 1) f None).
Proof. intros [|fuel] f arg L; [lia|]. cbn [Nat.sub]. rewrite Nat.sub_0_r. change (B"%w" ++ f) with (percent :: "w"%char :: f). cbn [printf].
  change (ceqb percent percent) with true. change (skip_options ("w"%char :: f)) with ("w"%char :: f). cbv iota beta.
  change (ceqb "w" percent) with false. change (ceqb "w" "*" || ceqb "w" "[" || (128 <=? cn "w")) with false. cbv iota.
  assert (beqb ("w"%char :: f) ("w"%char :: f) = true) as -> by (apply beqb_eq; reflexivity). reflexivity.
Qed.
Lemma errorf_plain : forall a b arg, plain a -> plain b -> errorf (a ++ B"%w" ++ b) arg = Text (a ++ arg ++ b).
Proof.
  intros a b arg A P. unfold errorf. rewrite !app_length. change (List.length (B"%w")) with 2.
  rewrite printf_front by (assumption || lia). rewrite printf_w by lia. rewrite printf_plain by (assumption || lia). reflexivity.
Qed.

Lemma count_lf_feeds : forall s, line_feeds s (count_lf s).
Proof.
  induction s as [|c s IH]; unfold count_lf in *; [constructor|]. cbn [count_occ]. destruct (ascii_dec c LF) as [->|N]; constructor; assumption.
Qed.
Lemma feeds_count : forall s n, line_feeds s n -> n = count_lf s.
Proof.
  unfold count_lf. induction 1; cbn [count_occ]; [reflexivity| |].
  - destruct (ascii_dec LF LF); [|contradiction]. congruence.
  - destruct (ascii_dec c LF); [contradiction|]. assumption.
Qed.
Lemma writes_dec : forall n, writes (N_dec (N.of_nat n)) n.
Proof.
  intros n. split; [apply dec_N_N_dec|]. destruct (N.of_nat n) as [|p].
  - exists "0"%char, []. split; [reflexivity|]. intros []. reflexivity.
  - destruct (N_dec_head p) as (c & r & E & _ & Z). exists c, r. auto.
Qed.
Lemma itoa_nat : forall n, itoa (Z.of_nat n) = N_dec (N.of_nat n).
Proof. intros n. unfold itoa. assert ((Z.of_nat n <? 0)%Z = false) as -> by lia. f_equal. lia. Qed.

Lemma dec_acc_digits : forall s acc v, dec_N_acc acc s = Some v -> forallb is_digit s = true.
Proof. induction s as [|c s IH]; intros acc v; cbn [dec_N_acc forallb]; [reflexivity|]. destruct (is_digit c); [|discriminate]. intros H. apply (IH _ _ H). Qed.
Lemma parse_written : forall t n, writes t n -> (Z.of_nat n < 2 ^ 63)%Z -> parse_int t = Some (Z.of_nat n).
Proof.
  intros t n (D & c & r & -> & _) L. unfold parse_int.
  assert (F : forallb is_digit (c :: r) = true) by (eapply dec_acc_digits; exact D).
  cbn [forallb] in F. apply andb_true_iff in F as (F & G).
  assert (ceqb c "-" = false) as -> by (destruct (ceqb c "-") eqn:E; [apply ceqb_t in E; subst c; discriminate F|reflexivity]).
  assert (ceqb c "+" = false) as -> by (destruct (ceqb c "+") eqn:E; [apply ceqb_t in E; subst c; discriminate F|reflexivity]).
  cbv iota beta. unfold all_digits. cbn [forallb]. rewrite F, G. cbn [andb]. rewrite D. cbv zeta iota beta.
  assert (((- 2 ^ 63 <=? Z.of_N (N.of_nat n)) && (Z.of_N (N.of_nat n) <? 2 ^ 63))%Z = true) as -> by lia. f_equal. lia.
Qed.
Lemma writes_inj : forall t n m, writes t n -> writes t m -> n = m.
Proof. intros t n m (A & _) (C & _). rewrite A in C. injection C as C. lia. Qed.

Definition ascii_text (s : bytes) : Prop := Forall (fun c => cn c < 128) s.
Lemma ascii_not_cont : forall c, cn c < 128 -> continuation c = false.
Proof. intros c H. unfold continuation. lia. Qed.
Lemma ascii_characters : forall s, ascii_text s -> characters s = List.length s.
Proof. induction 1 as [|c s A F IH]; cbn [characters List.length]; [reflexivity|]. rewrite (ascii_not_cont c A). lia. Qed.
Lemma ascii_before : forall s n, ascii_text s -> before_char (S n) s = firstn n s.
Proof.
  induction s as [|c s IH]; intros n F; [destruct n; reflexivity|]. inversion F as [|? ? A G]; subst. cbn [before_char]. rewrite (ascii_not_cont c A).
  destruct n as [|n]; [reflexivity|]. cbn [firstn]. f_equal. apply IH. exact G.
Qed.
Lemma firstn_S_nth : forall (s : bytes) n c, nth_error s n = Some c -> firstn (S n) s = firstn n s ++ [c].
Proof. induction s as [|a s IH]; intros [|n] c H; try discriminate; cbn in *; [congruence|]. rewrite (IH _ _ H). reflexivity. Qed.
Lemma count_lf_app : forall a b, count_lf (a ++ b) = count_lf a + count_lf b.
Proof. intros. apply count_occ_app. Qed.

(** Each character takes at least one byte. *)
Lemma characters_le : forall s, characters s <= List.length s.
Proof. induction s as [|c s IH]; cbn [characters List.length]; [lia|]. destruct (continuation c); lia. Qed.

(** The bytes up to a number are no more than the text before the character of that number, and that character. *)
Lemma before_prefix : forall s n, exists r, before_char n s = firstn (n - 1) s ++ r.
Proof.
  induction s as [|c s IH]; intros n.
  - exists []. destruct (n - 1); reflexivity.
  - destruct n as [|[|n]]; cbn [Nat.sub firstn app]; try (eexists; reflexivity). cbn [before_char]. rewrite ?Nat.sub_0_r.
    destruct (continuation c).
    + destruct (IH (S (S n))) as (r & E). cbn [Nat.sub] in E. rewrite E. destruct (nth_error s n) as [x|] eqn:Q.
      * rewrite (firstn_S_nth _ _ _ Q). exists (x :: r). cbn. f_equal. rewrite <- app_assoc. reflexivity.
      * apply nth_error_None in Q. exists r. rewrite (firstn_all2 (n := S n)), (firstn_all2 (n := n)) by lia. reflexivity.
    + destruct (IH (S n)) as (r & E). cbn [Nat.sub] in E. rewrite Nat.sub_0_r in E. rewrite E. exists r. reflexivity.
Qed.

(** The law of texts that are printed as formats. *)
Lemma skip_split : forall p s, exists a, s = a ++ skip p s /\ Forall (fun c => p c = true) a /\
  match skip p s with [] => True | c :: _ => p c = false end.
Proof.
  induction s as [|c s IH]; [exists []; repeat split; constructor|]. cbn [skip]. destruct (p c) eqn:E.
  - destruct IH as (a & S & F & H). exists (c :: a). split; [rewrite S at 1; reflexivity|]. split; [constructor; assumption|exact H].
  - exists []. split; [reflexivity|]. split; [constructor|exact E].
Qed.
Lemma flag_same : forall c, is_flag c = flag_char c.
Proof. intros c. unfold is_flag, flag_char, ceqb. cbn [B existsb]. rewrite orb_false_r, !orb_assoc. reflexivity. Qed.
Lemma options_split : forall s, exists f w p, s = f ++ w ++ p ++ skip_options s /\ options f w p /\
  match skip_options s with [] => True | c :: _ => ends_options w p c end.
Proof.
  intros s. destruct (skip_split is_flag s) as (f & S & F & Hf). set (s1 := skip is_flag s) in *.
  destruct (skip_split is_digit s1) as (w & S1 & W & Hw). set (s2 := skip is_digit s1) in *.
  assert (F' : Forall (fun c => flag_char c = true) f) by (eapply Forall_impl; [|exact F]; intros c; cbv beta; rewrite flag_same; auto).
  assert (Z : w = [] -> s2 = s1) by (intros ->; rewrite S1; reflexivity).
  unfold skip_options. fold s1 s2. destruct s2 as [|c u] eqn:E2.
  - exists f, w, []. split; [rewrite S at 1; rewrite S1 at 1; reflexivity|]. split; [|exact Logic.I]. split; [exact F'|]. split; [exact W|left; reflexivity].
  - destruct (ceqb c ".") eqn:D.
    + apply ceqb_t in D. subst c. destruct (skip_split is_digit u) as (q & U & Q & Hq). exists f, w, (B"." ++ q).
      split. { rewrite S at 1; rewrite S1 at 1. rewrite U at 1. cbn [app B]. rewrite <- ?app_assoc. reflexivity. }
      split; [split; [exact F'|]; split; [exact W|]; right; exists q; auto|].
      destruct (skip is_digit u) as [|v u']; [exact Logic.I|]. split; [exact Hq|]. split; intros; discriminate.
    + exists f, w, []. split; [rewrite S at 1; rewrite S1 at 1; reflexivity|]. split; [split; [exact F'|]; split; [exact W|left; reflexivity]|].
      split; [exact Hw|]. split; [intros _ ->; rewrite (proj2 (ceqb_t _ _) eq_refl) in D; discriminate|]. intros Ew _. rewrite <- (Z Ew) in Hf. rewrite <- flag_same. exact Hf.
Qed.
Lemma printf_garbled : forall fuel s t, printf fuel s None = Some t -> garbled s t.
Proof.
  induction fuel as [|fuel IH]; intros [|c s] t; cbn [printf]; intros E; try discriminate; try (injection E as <-; constructor).
  destruct (ceqb c percent) eqn:C.
  - apply ceqb_t in C. subst c. destruct (options_split s) as (f & w & p & S & O & H). destruct (skip_options s) as [|v f2] eqn:K.
    + injection E as <-. rewrite app_nil_r in S. rewrite S. apply (g_noverb f w p O).
    + destruct (ceqb v percent) eqn:V.
      * apply ceqb_t in V. subst v. destruct (printf fuel f2 None) as [t'|] eqn:R; [|discriminate]. injection E as <-. rewrite S.
        apply (g_percent f w p f2 t' O). apply IH. exact R.
      * destruct (ceqb v "*" || ceqb v "[" || (128 <=? cn v)); [discriminate|]. destruct (printf fuel f2 None) as [t'|] eqn:R; [|discriminate]. injection E as <-. rewrite S.
        apply (g_verb f w p v f2 t' O H); [intros ->; discriminate V|]. apply IH. exact R.
  - destruct (printf fuel s None) as [t'|] eqn:R; [|discriminate]. injection E as <-. constructor; [intros ->; discriminate C|]. apply IH. exact R.
Qed.
Lemma errorf_garbled : forall a b arg s, plain a -> errorf (a ++ B"%w" ++ b) arg = Text s -> exists b', garbled b b' /\ s = a ++ arg ++ b'.
Proof.
  intros a b arg s A. unfold errorf. rewrite !app_length. change (List.length (B"%w")) with 2.
  rewrite printf_front by (assumption || lia). rewrite printf_w by lia. destruct (printf _ b None) as [b'|] eqn:P; [|discriminate].
  intros E. injection E as <-. exists b'. split; [apply (printf_garbled _ _ _ P)|reflexivity].
Qed.
