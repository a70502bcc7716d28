(** Facts about the texts of times: which texts the formats read. *)
From Coq Require Import Lia ZifyBool.
From Verif Require Import GoStr GoStrFacts ModelStamp SpecStamp StampDays.
Open Scope Z_scope.

Lemma ceqb_iff a b : ceqb a b = true <-> a = b.
Proof. unfold ceqb. apply Ascii.eqb_eq. Qed.
(** ** Digits *)
Lemma digit_of_iff c v : digit_of c = Some v <-> exists i, nth_error figures i = Some c /\ v = Z.of_nat i.
Proof.
  split.
  - intros E. exists (Z.to_nat v). revert E. destruct c as [[] [] [] [] [] [] [] []]; cbv; intros E; try discriminate E; injection E as <-; cbv; split; reflexivity.
  - intros (i & E & ->). unfold figures in E. do 10 (destruct i as [|i]; [injection E as <-; reflexivity|]). destruct i; discriminate E.
Qed.
Lemma digit_of_range c v : digit_of c = Some v -> 0 <= v < 10.
Proof. intros E. apply digit_of_iff in E. destruct E as (i & E & ->). assert (L : (i < 10)%nat) by (apply (nth_error_Some figures); congruence). lia. Qed.
Lemma digit_of_In c : In c figures <-> exists v, digit_of c = Some v.
Proof.
  split.
  - intros I. apply In_nth_error in I. destruct I as (i & I). exists (Z.of_nat i). apply digit_of_iff. eauto.
  - intros (v & E). apply digit_of_iff in E. destruct E as (i & E & _). eapply nth_error_In, E.
Qed.
Lemma writes1 n s : writes 1 n s <-> exists a, s = [a] /\ digit_of a = Some n.
Proof.
  split.
  - intros W. inversion W as [|? n0 s0 i c W0 E]; subst. inversion W0; subst. exists c. split; [reflexivity|]. apply digit_of_iff. exists i. split; [exact E|lia].
  - intros (a & -> & D). apply digit_of_iff in D. destruct D as (i & E & ->). change [a] with ([] ++ [a]). replace (Z.of_nat i) with (10 * 0 + Z.of_nat i) by lia. constructor; [constructor|exact E].
Qed.
Lemma writes_S k n s : writes (S k) n s <-> exists n0 s0 a v, writes k n0 s0 /\ s = s0 ++ [a] /\ digit_of a = Some v /\ n = 10 * n0 + v.
Proof.
  split.
  - intros W. inversion W as [|? n0 s0 i c W0 E]; subst. exists n0, s0, c, (Z.of_nat i). repeat split; [exact W0|apply digit_of_iff; eauto].
  - intros (n0 & s0 & a & v & W & -> & D & ->). apply digit_of_iff in D. destruct D as (i & E & ->). constructor; assumption.
Qed.
Lemma writes2 n s : writes 2 n s <-> exists a b x y, s = [a; b] /\ digit_of a = Some x /\ digit_of b = Some y /\ n = 10 * x + y.
Proof.
  rewrite writes_S. split.
  - intros (n0 & s0 & b & y & W & -> & D & ->). apply writes1 in W. destruct W as (a & -> & D'). exists a, b, n0, y. auto.
  - intros (a & b & x & y & -> & D & D' & ->). exists x, [a], b, y. split; [apply writes1; eauto|auto].
Qed.
Lemma writes4 n s : writes 4 n s <-> exists a b c d x y z w, s = [a; b; c; d] /\ digit_of a = Some x /\ digit_of b = Some y /\ digit_of c = Some z /\ digit_of d = Some w /\ n = 1000 * x + 100 * y + 10 * z + w.
Proof.
  rewrite writes_S. split.
  - intros (n0 & s0 & d & w & W & -> & D & ->). apply writes_S in W. destruct W as (n1 & s1 & c & z & W & -> & D1 & ->).
    apply writes2 in W. destruct W as (a & b & x & y & -> & D2 & D3 & ->). exists a, b, c, d, x, y, z, w. repeat split; try assumption. lia.
  - intros (a & b & c & d & x & y & z & w & -> & A & Hb & C & D & ->). exists (100 * x + 10 * y + z), [a; b; c], d, w. split; [|repeat split; [assumption|lia]].
    apply writes_S. exists (10 * x + y), [a; b], c, z. split; [apply writes2; exists a, b, x, y; auto|repeat split; [assumption|lia]].
Qed.
Lemma writes_nonneg k n s : writes k n s -> 0 <= n.
Proof. induction 1 as [|k n s i c _ IH _]; lia. Qed.
Lemma writes_first k n s : writes (S k) n s -> exists a v r, s = a :: r /\ digit_of a = Some v.
Proof.
  revert n s. induction k as [|k IH]; intros n s W.
  - apply writes1 in W. destruct W as (a & -> & D). eauto.
  - apply writes_S in W. destruct W as (n0 & s0 & b & v & W & -> & D & ->). destruct (IH _ _ W) as (a & w & r & -> & D'). exists a, w, (r ++ [b]). split; [reflexivity|exact D'].
Qed.

(** ** Parts *)
Lemma getnum_writes n w r : writes 2 n w -> forall fixed, getnum (w ++ r) fixed = Some (n, r).
Proof. intros W fixed. apply writes2 in W. destruct W as (a & b & x & y & -> & A & Hb & ->). cbn [getnum app]. rewrite A, Hb. reflexivity. Qed.
Definition digit_first (s : bytes) : Prop := exists a v r, s = a :: r /\ digit_of a = Some v.
Lemma getnum_short n w r : writes 1 n w -> ~ digit_first r -> getnum (w ++ r) false = Some (n, r).
Proof.
  intros W N. apply writes1 in W. destruct W as (a & -> & A). cbn [getnum app]. rewrite A. destruct r as [|b r]; [reflexivity|]. destruct (digit_of b) as [v|] eqn:E; [exfalso; apply N; exists b, v, r; auto|reflexivity].
Qed.
Lemma getnum_true s n r : getnum s true = Some (n, r) -> exists w, writes 2 n w /\ s = w ++ r.
Proof.
  destruct s as [|a s]; [discriminate|]. cbn [getnum]. destruct (digit_of a) as [x|] eqn:A; [|discriminate]. destruct s as [|b s]; [discriminate|].
  destruct (digit_of b) as [y|] eqn:Hb; [|discriminate]. intros E. injection E as <- <-. exists [a; b]. split; [|reflexivity]. apply writes2. exists a, b, x, y. auto.
Qed.
Lemma getnum_false s n r : getnum s false = Some (n, r) -> exists k w, (k = 2 \/ k = 1)%nat /\ writes k n w /\ s = w ++ r.
Proof.
  destruct s as [|a s]; [discriminate|]. cbn [getnum]. destruct (digit_of a) as [x|] eqn:A; [|discriminate]. destruct s as [|b s].
  - intros E. injection E as <- <-. exists 1%nat, [a]. split; [auto|]. split; [|reflexivity]. apply writes1. eauto.
  - destruct (digit_of b) as [y|] eqn:Hb; intros E; injection E as <- <-.
    + exists 2%nat, [a; b]. split; [auto|]. split; [|reflexivity]. apply writes2. exists a, b, x, y. auto.
    + exists 1%nat, [a]. split; [auto|]. split; [|reflexivity]. apply writes1. eauto.
Qed.
Lemma getyear_writes n w r : writes 4 n w -> getyear (w ++ r) = Some (n, r).
Proof. intros W. apply writes4 in W. destruct W as (a & b & c & d & x & y & z & v & -> & A & Hb & C & D & ->). cbn [getyear app]. rewrite A, Hb, C, D. reflexivity. Qed.
Lemma getyear_inv s n r : getyear s = Some (n, r) -> exists w, writes 4 n w /\ s = w ++ r.
Proof.
  destruct s as [|a [|b [|c [|d s]]]]; try discriminate. cbn [getyear]. destruct (digit_of a) as [x|] eqn:A; [|discriminate]. destruct (digit_of b) as [y|] eqn:Hb; [|discriminate].
  destruct (digit_of c) as [z|] eqn:C; [|discriminate]. destruct (digit_of d) as [v|] eqn:D; [|discriminate]. intros E. injection E as <- <-. exists [a; b; c; d]. split; [|reflexivity].
  apply writes4. exists a, b, c, d, x, y, z, v. auto 10.
Qed.
Lemma skip_plain c s : c <> " "%char -> skip c (c :: s) = Some s.
Proof. intros N. cbn [skip]. assert (ceqb c c = true) as -> by (apply ceqb_iff; reflexivity). destruct (ceqb c " ") eqn:E; [apply ceqb_iff in E; contradiction|reflexivity]. Qed.
Lemma skip_inv c s r : c <> " "%char -> skip c s = Some r -> s = c :: r.
Proof.
  intros N. unfold skip. destruct (ceqb c " ") eqn:E; [apply ceqb_iff in E; contradiction|]. destruct s as [|x s]; [discriminate|]. destruct (ceqb c x) eqn:X; [|discriminate]. apply ceqb_iff in X. subst x. intros F. injection F as <-. reflexivity.
Qed.
Lemma cut_space_inv s : exists n, s = repeat " "%char n ++ cut_space s.
Proof. induction s as [|c s (n & IH)]; [exists 0%nat; reflexivity|]. cbn [cut_space]. destruct (ceqb c " ") eqn:E; [|exists 0%nat; reflexivity]. apply ceqb_iff in E. subst c. exists (S n). cbn [repeat app]. f_equal. exact IH. Qed.
Lemma skip_space_inv s r : skip " " s = Some r -> (s = [] /\ r = []) \/ exists n, s = repeat " "%char (S n) ++ r.
Proof.
  destruct s as [|x s]; cbn [skip].
  - intros E. injection E as <-. auto.
  - destruct (ceqb " " x) eqn:X; [|discriminate]. apply ceqb_iff in X. subst x. intros F. change (ceqb " " " ") with true in F. cbv iota in F. injection F as <-.
    destruct (cut_space_inv s) as (n & E). right. exists n. cbn [repeat app]. f_equal. exact E.
Qed.
Lemma digit_not_space a v : digit_of a = Some v -> ceqb a " " = false.
Proof. intros D. destruct (ceqb a " ") eqn:E; [|reflexivity]. apply ceqb_iff in E. subst a. discriminate D. Qed.
Lemma cut_space_digits n s : digit_first s -> cut_space (repeat " "%char n ++ s) = s.
Proof. intros (a & v & r & -> & D). induction n as [|n IH]; cbn [repeat app cut_space]; [rewrite (digit_not_space a v D); reflexivity|exact IH]. Qed.
Lemma skip_spaces n s : digit_first s -> skip " " (repeat " "%char (S n) ++ s) = Some s.
Proof. intros D. cbn [skip repeat app]. change (ceqb " " " ") with true. cbv iota. rewrite (cut_space_digits n s D). reflexivity. Qed.
Lemma drop_digits_inv s : exists l, (forall x, In x l -> In x figures) /\ s = l ++ drop_digits s.
Proof.
  induction s as [|c s (l & A & E)]; [exists []; split; [intros x []|reflexivity]|]. cbn [drop_digits]. destruct (digit_of c) as [v|] eqn:D.
  - exists (c :: l). split; [|cbn [app]; f_equal; exact E]. intros x [<-|I]; [apply digit_of_In; eauto|apply A, I].
  - exists []. split; [intros x []|reflexivity].
Qed.
Lemma drop_digits_all l s : (forall x, In x l -> In x figures) -> ~ digit_first s -> drop_digits (l ++ s) = s.
Proof.
  intros A N. induction l as [|c l IH].
  - destruct s as [|b s]; [reflexivity|]. cbn [app drop_digits]. destruct (digit_of b) as [v|] eqn:E; [exfalso; apply N; exists b, v, s; auto|reflexivity].
  - cbn [app drop_digits]. destruct (proj1 (digit_of_In c) (A c (or_introl eq_refl))) as (v & ->). apply IH. intros x I. apply A. right. exact I.
Qed.
Lemma drop_fraction_inv s : exists f, fraction_text true f /\ s = f ++ drop_fraction s.
Proof.
  destruct s as [|c [|x s]]; try (exists []; split; [constructor|reflexivity]). cbn [drop_fraction]. destruct (ceqb c "." || ceqb c ",")%bool eqn:P; [|exists []; split; [constructor|reflexivity]].
  destruct (digit_of x) as [v|] eqn:D; [|exists []; split; [constructor|reflexivity]]. destruct (drop_digits_inv s) as (l & A & E). exists (c :: x :: l). split; [|cbn [app]; do 2 f_equal; exact E].
  constructor; [|apply digit_of_In; eauto|exact A]. apply orb_true_iff in P. rewrite !ceqb_iff in P. destruct P as [-> | ->]; auto.
Qed.
Definition point_first (s : bytes) : Prop := exists p r, s = p :: r /\ (p = "." \/ p = ",")%char.
Lemma drop_fraction_all loose f s : fraction_text loose f -> ~ digit_first s -> ~ point_first s -> drop_fraction (f ++ s) = s.
Proof.
  intros [|p c l P C A] N M.
  - destruct s as [|a [|b s]]; try reflexivity. cbn [app drop_fraction]. destruct (ceqb a "." || ceqb a ",")%bool eqn:E; [|reflexivity]. exfalso. apply M. exists a, (b :: s). split; [reflexivity|]. apply orb_true_iff in E. rewrite !ceqb_iff in E. exact E.
  - cbn [app drop_fraction]. destruct (proj1 (digit_of_In c) C) as (v & ->).
    assert ((ceqb p "." || ceqb p ",")%bool = true) as ->. { apply orb_true_iff. rewrite !ceqb_iff. tauto. } apply drop_digits_all; assumption.
Qed.
Lemma getzone_inv s n r : getzone s = Some (n, r) -> exists u, zone_text true u n /\ s = u ++ r.
Proof.
  destruct s as [|sg [|a [|b [|q [|c [|d s]]]]]]; try discriminate. cbn [getzone]. destruct (ceqb q ":") eqn:Q; [|discriminate]. apply ceqb_iff in Q. subst q.
  destruct (getnum [a; b] true) as [[h r1]|] eqn:H; [|discriminate]. destruct (getnum [c; d] true) as [[m r2]|] eqn:M; [|discriminate].
  apply getnum_true in H. destruct H as (w & W & E1). apply getnum_true in M. destruct M as (w' & W' & E2).
  assert (L1 : w = [a; b] /\ r1 = []). { pose proof W as W0. apply writes2 in W0. destruct W0 as (? & ? & ? & ? & -> & _). cbn in E1. injection E1 as -> -> <-. auto. }
  assert (L2 : w' = [c; d] /\ r2 = []). { pose proof W' as W0. apply writes2 in W0. destruct W0 as (? & ? & ? & ? & -> & _). cbn in E2. injection E2 as -> -> <-. auto. }
  destruct L1 as (-> & ->), L2 as (-> & ->). destruct ((24 <? h) || (60 <? m))%bool eqn:G; [discriminate|].
  destruct (ceqb sg "+") eqn:S1; [apply ceqb_iff in S1; subst sg|destruct (ceqb sg "-") eqn:S2; [apply ceqb_iff in S2; subst sg|discriminate]]; intros E; injection E as <- <-.
  - exists ("+"%char :: [a; b] ++ B":" ++ [c; d]). split; [|reflexivity]. pose proof (zone_text_of true true h m _ _ W W' ltac:(cbv iota; lia)) as X. cbv iota in X. replace ((h * 60 + m) * 60) with (h * 3600 + m * 60) by lia. exact X.
  - exists ("-"%char :: [a; b] ++ B":" ++ [c; d]). split; [|reflexivity]. pose proof (zone_text_of true false h m _ _ W W' ltac:(cbv iota; lia)) as X. cbv iota in X. replace (- ((h * 60 + m) * 60)) with (- (h * 3600 + m * 60)) by lia. exact X.
Qed.
Lemma getzone_all u n r : zone_text true u n -> getzone (u ++ r) = Some (n, r).
Proof.
  intros [east h m a b W W' G]. cbv iota in G. pose proof (getnum_writes _ _ [] W true) as X. pose proof (getnum_writes _ _ [] W' true) as X'. rewrite app_nil_r in X, X'.
  apply writes2 in W. destruct W as (a1 & a2 & ? & ? & -> & _). apply writes2 in W'. destruct W' as (b1 & b2 & ? & ? & -> & _).
  cbn [getzone app B list_ascii_of_string]. change (ceqb ":" ":") with true. cbv iota. rewrite X, X'. destruct ((24 <? h) || (60 <? m))%bool eqn:F; [lia|].
  destruct east; [change (ceqb "+" "+") with true|change (ceqb "-" "+") with false; change (ceqb "-" "-") with true]; cbv iota; do 2 f_equal; lia.
Qed.

(** ** Whole texts *)
Lemma clock_digit loose c t r : clock_text loose c t -> digit_first (c ++ r).
Proof.
  intros [k h m a b W K _ _ _]. assert (exists k', k = S k') as (k' & ->) by (destruct K as [-> | (_ & ->)]; eauto). destruct (writes_first _ _ _ W) as (x & v & a' & -> & D).
  exists x, v, ((a' ++ B":" ++ b) ++ r). split; [reflexivity|exact D].
Qed.
Lemma colon_no_digit r : ~ digit_first (B":" ++ r).
Proof. intros (a & v & r' & E & D). cbn in E. injection E as <- _. discriminate D. Qed.
Lemma parse_date l s y m d a b c : writes 4 y a -> writes 2 m b -> writes 2 d c -> valid_date (Date y m d) ->
  parse (date_chunks ++ l) ((a ++ B"-" ++ b ++ B"-" ++ c) ++ s) no_time = parse l s (Stamp y m d 0 0 0 0).
Proof.
  intros A Hb C V. apply valid_date_iff in V. unfold date_chunks. cbn [app parse]. rewrite <- !app_assoc. rewrite (getyear_writes y a _ A). change (B"-") with ["-"%char]. cbn [app].
  rewrite skip_plain by discriminate. rewrite (getnum_writes m b _ Hb true). destruct ((m <=? 0) || (12 <? m))%bool eqn:E; [lia|].
  rewrite skip_plain by discriminate. rewrite (getnum_writes d c _ C true). reflexivity.
Qed.
Lemma parse_clock loose c z : clock_text loose c z -> exists h mi, h * 3600 + mi * 60 = z /\ forall l s y m d,
  parse (Hour :: Lit ":" :: Minute :: l) (c ++ s) (Stamp y m d 0 0 0 0) = parse l s (Stamp y m d h mi 0 0).
Proof.
  intros [k h mi a b W K H W' M]. exists h, mi. split; [reflexivity|]. intros l s y m d. cbn [parse]. rewrite <- !app_assoc.
  assert (getnum (a ++ B":" ++ b ++ s) false = Some (h, B":" ++ b ++ s)) as ->. { destruct K as [-> | (_ & ->)]; [apply getnum_writes, W|apply getnum_short; [exact W|apply colon_no_digit]]. }
  destruct (24 <=? h) eqn:E; [lia|]. change (B":") with [":"%char]. cbn [app]. rewrite skip_plain by discriminate. rewrite (getnum_writes mi b s W' true). destruct (60 <=? mi) eqn:E'; [lia|]. reflexivity.
Qed.
Lemma parse_second l w k s t : writes 2 k w -> k < 60 ->
  parse (Lit ":" :: Second :: l) (B":" ++ w ++ s) t = parse l (if next_fraction l then s else drop_fraction s) (Stamp (st_year t) (st_month t) (st_day t) (st_hour t) (st_minute t) k (st_zone t)).
Proof. intros W K. cbn [parse]. change (B":") with [":"%char]. cbn [app]. rewrite skip_plain by discriminate. rewrite (getnum_writes k w s W true). destruct (60 <=? k) eqn:E; [lia|]. reflexivity. Qed.
Lemma parse_end y m d h mi k z : valid_date (Date y m d) -> parse [] [] (Stamp y m d h mi k z) = Some (Stamp y m d h mi k z).
Proof. intros V. apply valid_date_iff in V. cbn [parse st_day st_month st_year]. destruct ((1 <=? d) && (d <=? days_in m y))%bool eqn:E; [reflexivity|lia]. Qed.
Lemma unix_of_day x n h mi k z : day_number x n -> unix_of (Stamp (dt_year x) (dt_month x) (dt_day x) h mi k z) = n * 86400 + (h * 3600 + mi * 60) + k - z.
Proof. intros D. apply day_number_days in D. destruct D as (_ & E). unfold unix_of. cbn [st_year st_month st_day st_hour st_minute st_second st_zone]. unfold days in E. rewrite E. lia. Qed.
(** Between date and time: one of the two kinds of formats goes on, the other fails. *)
Definition kind (space : bool) : ascii := if space then " "%char else "T"%char.
Lemma parse_between b : between true b -> exists space, forall l s t, digit_first s ->
  parse (Lit (kind space) :: l) (b ++ s) t = parse l s t /\ parse (Lit (kind (negb space)) :: l) (b ++ s) t = None.
Proof.
  intros [|n _].
  - exists false. intros l s t _. cbn [kind negb parse]. split; reflexivity.
  - exists true. intros l s t D. cbn [kind negb]. split; [|reflexivity]. cbn [parse]. rewrite (skip_spaces n s D). reflexivity.
Qed.
Definition clock_format (space : bool) (l : list chunk) : list chunk := date_chunks ++ Lit (kind space) :: Hour :: Lit ":" :: Minute :: l.
Definition tails : list (list chunk) := [[Lit ":"; Second; Fraction; Zone]; [Lit ":"; Second; Fraction]; [Lit ":"; Second]; []].
Lemma formats_form : stamp_formats = flat_map (fun l => [clock_format true l; clock_format false l]) tails ++ [date_chunks ++ []].
Proof. reflexivity. Qed.
Fixpoint first_fit (l : list (list chunk)) (s : bytes) (t : stamp) : option Z :=
  match l with [] => None | f :: l' => match parse f s t with Some v => Some (unix_of v) | None => first_fit l' s t end end.
(** The text after the minutes decides. *)
Lemma stamp_text_clock s x b c t : date_text s x -> between true b -> clock_text true c t -> exists h mi, h * 3600 + mi * 60 = t /\ forall r z,
  first_fit tails r (Stamp (dt_year x) (dt_month x) (dt_day x) h mi 0 0) = Some z -> stamp_text (s ++ b ++ c ++ r) = Some z.
Proof.
  intros [y m d a b1 c1 A Hb C V] T K. cbn [dt_year dt_month dt_day]. destruct (parse_between b T) as (space & P).
  destruct (parse_clock true c t K) as (h & mi & Et & X). exists h, mi. split; [exact Et|]. intros r z. pose proof (clock_digit true c t r K) as F.
  unfold stamp_text. rewrite formats_form. generalize (tails). induction l as [|f l IH]; [discriminate|]. cbn [first_fit flat_map app try_formats].
  assert (Y : parse (clock_format space f) ((a ++ B"-" ++ b1 ++ B"-" ++ c1) ++ b ++ c ++ r) no_time = parse f r (Stamp y m d h mi 0 0)).
  { unfold clock_format. rewrite (parse_date _ _ y m d a b1 c1 A Hb C V), (proj1 (P _ _ _ F)). apply X. }
  assert (N : parse (clock_format (negb space) f) ((a ++ B"-" ++ b1 ++ B"-" ++ c1) ++ b ++ c ++ r) no_time = None).
  { unfold clock_format. rewrite (parse_date _ _ y m d a b1 c1 A Hb C V). apply (proj2 (P _ _ _ F)). }
  destruct space; cbn [negb] in N; rewrite Y, N; (destruct (parse f r (Stamp y m d h mi 0 0)) as [v|]; [exact (fun e => e)|exact IH]).
Qed.
Lemma no_digit_nil : ~ digit_first []. Proof. intros (a & v & r & E & _). discriminate E. Qed.
Lemma no_point_nil : ~ point_first []. Proof. intros (a & r & E & _). discriminate E. Qed.
Lemma zone_first loose u o : zone_text loose u o -> ~ digit_first u /\ ~ point_first u.
Proof. intros [east h m a b _ _ _]. split; [intros (p & v & r & E & D); injection E as <- _; destruct east; discriminate D|intros (p & r & E & D); injection E as <- _; destruct east, D; discriminate]. Qed.
Lemma date_text_valid s x : date_text s x -> valid_date (Date (dt_year x) (dt_month x) (dt_day x)).
Proof. intros [y m d a b c _ _ _ V]. exact V. Qed.
Theorem stamp_text_complete s z : time_text true s z -> stamp_text s = Some z.
Proof.
  intros [s0 x n T D|s0 x n b c t T D Hb C|s0 x n b c t w k f T D Hb C W K F|s0 x n b c t w k f u o T D Hb C W K F U].
  - pose proof (date_text_valid _ _ T) as V. destruct T as [y m d a b c A Hb C V'].
    assert (X : forall l, parse (date_chunks ++ l) (a ++ B"-" ++ b ++ B"-" ++ c) no_time = parse l [] (Stamp y m d 0 0 0 0)). { intros l. rewrite <- (parse_date l [] y m d a b c A Hb C V'), app_nil_r. reflexivity. }
    unfold stamp_text. rewrite formats_form. cbn [tails flat_map app try_formats]. unfold clock_format. rewrite !X. cbn [kind parse skip]. change (ceqb " " " ") with true. cbv iota. cbn [getnum].
    change (ceqb "T" " ") with false. cbv iota. change (match parse [] [] (Stamp y m d 0 0 0 0) with Some t => Some (unix_of t) | None => None end = Some (n * 86400)).
    rewrite parse_end by exact V'. pose proof (unix_of_day _ _ 0 0 0 0 D) as U. cbn [dt_year dt_month dt_day] in U. rewrite U. f_equal. lia.
  - destruct (stamp_text_clock s0 x b c t T Hb C) as (h & mi & E & X). specialize (X [] (n * 86400 + t)). rewrite app_nil_r in X. apply X. cbn [tails first_fit].
    change (parse [Lit ":"; Second; Fraction; Zone] [] (Stamp (dt_year x) (dt_month x) (dt_day x) h mi 0 0)) with (@None stamp).
    change (parse [Lit ":"; Second; Fraction] [] (Stamp (dt_year x) (dt_month x) (dt_day x) h mi 0 0)) with (@None stamp).
    change (parse [Lit ":"; Second] [] (Stamp (dt_year x) (dt_month x) (dt_day x) h mi 0 0)) with (@None stamp). cbv iota.
    rewrite parse_end by (eapply date_text_valid, T). rewrite (unix_of_day x n) by exact D. f_equal. lia.
  - destruct (stamp_text_clock s0 x b c t T Hb C) as (h & mi & E & X). apply X. cbn [tails first_fit]. rewrite !(parse_second _ w k) by assumption. cbn [next_fraction st_year st_month st_day st_hour st_minute st_second st_zone].
    assert (Y : drop_fraction f = []) by (rewrite <- (app_nil_r f) at 1; apply (drop_fraction_all true); [exact F|apply no_digit_nil|apply no_point_nil]).
    cbn [parse]. rewrite Y. change (getzone []) with (@None (Z * bytes)). cbv iota. change (match parse [] [] (Stamp (dt_year x) (dt_month x) (dt_day x) h mi k 0) with Some v => Some (unix_of v) | None => match parse [] [] (Stamp (dt_year x) (dt_month x) (dt_day x) h mi k 0) with Some v => Some (unix_of v) | None => first_fit [[]] (B":" ++ w ++ f) (Stamp (dt_year x) (dt_month x) (dt_day x) h mi 0 0) end end = Some (n * 86400 + t + k)).
    rewrite parse_end by (eapply date_text_valid, T). rewrite (unix_of_day x n) by exact D. f_equal. lia.
  - destruct (stamp_text_clock s0 x b c t T Hb C) as (h & mi & E & X). apply X. cbn [tails first_fit]. rewrite (parse_second _ w k) by assumption. cbn [next_fraction st_year st_month st_day st_hour st_minute st_second st_zone].
    cbn [parse]. rewrite (drop_fraction_all true f u F (proj1 (zone_first _ _ _ U)) (proj2 (zone_first _ _ _ U))). pose proof (getzone_all u o [] U) as Z. rewrite app_nil_r in Z. rewrite Z.
    cbn [st_year st_month st_day st_hour st_minute st_second st_zone].
    pose proof (parse_end (dt_year x) (dt_month x) (dt_day x) h mi k o (date_text_valid _ _ T)) as R. cbn [parse st_day st_month st_year] in R. rewrite R. rewrite (unix_of_day x n) by exact D. f_equal. lia.
Qed.

(** ** What is read is a text of a time *)
Lemma parse_end_inv s t v : parse [] s t = Some v -> s = [] /\ v = t /\ 1 <= st_day t <= days_in (st_month t) (st_year t).
Proof. cbn [parse]. destruct s; [|discriminate]. destruct ((1 <=? st_day t) && (st_day t <=? days_in (st_month t) (st_year t)))%bool eqn:E; [|discriminate]. intros F. injection F as <-. split; [reflexivity|]. split; [reflexivity|lia]. Qed.
Lemma parse_date_inv l s v : parse (date_chunks ++ l) s no_time = Some v -> exists y m d a b c r, writes 4 y a /\ writes 2 m b /\ writes 2 d c /\ 1 <= m <= 12 /\
  s = (a ++ B"-" ++ b ++ B"-" ++ c) ++ r /\ parse l r (Stamp y m d 0 0 0 0) = Some v.
Proof.
  unfold date_chunks. cbn [app parse]. destruct (getyear s) as [[y r]|] eqn:Y; [|discriminate]. apply getyear_inv in Y. destruct Y as (a & A & ->).
  destruct (skip "-" r) as [r1|] eqn:S1; [|discriminate]. apply skip_inv in S1; [|discriminate]. subst r. destruct (getnum r1 true) as [[m r2]|] eqn:M; [|discriminate]. apply getnum_true in M. destruct M as (b & Hb & ->).
  destruct ((m <=? 0) || (12 <? m))%bool eqn:E; [discriminate|]. destruct (skip "-" r2) as [r3|] eqn:S2; [|discriminate]. apply skip_inv in S2; [|discriminate]. subst r2.
  destruct (getnum r3 true) as [[d r4]|] eqn:D; [|discriminate]. apply getnum_true in D. destruct D as (c & C & ->). intros P. exists y, m, d, a, b, c, r4. repeat split; try assumption; try lia. rewrite <- !app_assoc. reflexivity.
Qed.
Lemma parse_clock_inv l s y m d v : parse (Hour :: Lit ":" :: Minute :: l) s (Stamp y m d 0 0 0 0) = Some v -> exists h mi c r, clock_text true c (h * 3600 + mi * 60) /\ s = c ++ r /\ parse l r (Stamp y m d h mi 0 0) = Some v.
Proof.
  cbn [parse]. destruct (getnum s false) as [[h r]|] eqn:H; [|discriminate]. apply getnum_false in H. destruct H as (k & a & K & W & ->). destruct (24 <=? h) eqn:E; [discriminate|].
  destruct (skip ":" r) as [r1|] eqn:S1; [|discriminate]. apply skip_inv in S1; [|discriminate]. subst r. destruct (getnum r1 true) as [[mi r2]|] eqn:M; [|discriminate]. apply getnum_true in M. destruct M as (b & W' & ->).
  destruct (60 <=? mi) eqn:E'; [discriminate|]. intros P. exists h, mi, (a ++ B":" ++ b), r2. split; [apply (clock_text_of true k); try assumption; [destruct K; auto|lia|lia]|]. split; [rewrite <- !app_assoc; reflexivity|exact P].
Qed.
Lemma parse_second_inv l s t v : parse (Lit ":" :: Second :: l) s t = Some v -> exists w k r, writes 2 k w /\ k < 60 /\ s = B":" ++ w ++ r /\
  parse l (if next_fraction l then r else drop_fraction r) (Stamp (st_year t) (st_month t) (st_day t) (st_hour t) (st_minute t) k (st_zone t)) = Some v.
Proof.
  cbn [parse]. destruct (skip ":" s) as [r1|] eqn:S1; [|discriminate]. apply skip_inv in S1; [|discriminate]. subst s. destruct (getnum r1 true) as [[k r2]|] eqn:M; [|discriminate]. apply getnum_true in M. destruct M as (w & W & ->).
  destruct (60 <=? k) eqn:E; [discriminate|]. intros P. exists w, k, r2. repeat split; [exact W|lia|exact P].
Qed.
(** What the parts after the minutes read. *)
Definition tail_reads (r : bytes) (h mi : Z) (y m d : Z) (v : stamp) : Prop :=
  (r = [] /\ v = Stamp y m d h mi 0 0) \/
  (exists w k f, writes 2 k w /\ k < 60 /\ fraction_text true f /\ r = B":" ++ w ++ f /\ v = Stamp y m d h mi k 0) \/
  (exists w k f u o, writes 2 k w /\ k < 60 /\ fraction_text true f /\ zone_text true u o /\ r = B":" ++ w ++ f ++ u /\ v = Stamp y m d h mi k o).
Lemma tails_inv l r y m d h mi v : In l tails -> parse l r (Stamp y m d h mi 0 0) = Some v -> tail_reads r h mi y m d v /\ 1 <= d <= days_in m y.
Proof.
  intros [<-|[<-|[<-|[<-|[]]]]] P.
  - apply parse_second_inv in P. destruct P as (w & k & r' & W & K & -> & P). cbn [next_fraction st_year st_month st_day st_hour st_minute st_second st_zone parse] in P.
    destruct (getzone (drop_fraction r')) as [[o r2]|] eqn:Z; [|discriminate]. apply getzone_inv in Z. destruct Z as (u & U & E). cbn [st_year st_month st_day st_hour st_minute st_second st_zone] in P.
    apply (parse_end_inv r2 (Stamp y m d h mi k o)) in P. destruct P as (-> & -> & D). split; [|exact D]. rewrite app_nil_r in E. destruct (drop_fraction_inv r') as (f & F & E'). rewrite E in E'. right. right. exists w, k, f, u, o. subst r'. repeat split; assumption.
  - apply parse_second_inv in P. destruct P as (w & k & r' & W & K & -> & P). cbn [next_fraction st_year st_month st_day st_hour st_minute st_second st_zone] in P.
    apply (parse_end_inv (drop_fraction r') (Stamp y m d h mi k 0)) in P. destruct P as (E & -> & D). split; [|exact D]. destruct (drop_fraction_inv r') as (f & F & E'). rewrite E, app_nil_r in E'. subst r'. right. left. exists w, k, f. repeat split; assumption.
  - apply parse_second_inv in P. destruct P as (w & k & r' & W & K & -> & P). cbn [next_fraction st_year st_month st_day st_hour st_minute st_second st_zone] in P.
    apply (parse_end_inv (drop_fraction r') (Stamp y m d h mi k 0)) in P. destruct P as (E & -> & D). split; [|exact D]. destruct (drop_fraction_inv r') as (f & F & E'). rewrite E, app_nil_r in E'. subst r'. right. left. exists w, k, f. repeat split; assumption.
  - apply parse_end_inv in P. destruct P as (-> & -> & D). split; [left; auto|exact D].
Qed.
Lemma number_of y m d : 1 <= m <= 12 -> 1 <= d <= days_in m y -> exists n, day_number (Date y m d) n.
Proof. intros R D. exists (date_days y m d - unix_days). apply day_number_iff. split; [split; assumption|unfold days; cbn [dt_year dt_month dt_day]; lia]. Qed.
Lemma clock_format_inv space l s v : In l tails -> parse (clock_format space l) s no_time = Some v -> time_text true s (unix_of v).
Proof.
  intros I P. unfold clock_format in P. apply parse_date_inv in P. destruct P as (y & m & d & a & b & c & r & A & Hb & C & R & -> & P).
  assert (X : exists bt r', between true bt /\ r = bt ++ r' /\ parse (Hour :: Lit ":" :: Minute :: l) r' (Stamp y m d 0 0 0 0) = Some v).
  { cbn [parse] in P. destruct (skip (kind space) r) as [r'|] eqn:S1; [|discriminate]. destruct space; cbn [kind] in S1.
    - apply skip_space_inv in S1. destruct S1 as [(-> & ->)|(n & ->)]; [discriminate P|]. exists (repeat " "%char (S n)), r'. split; [constructor; auto|split; [reflexivity|exact P]].
    - apply skip_inv in S1; [|discriminate]. subst r. exists (B"T"), r'. split; [constructor|split; [reflexivity|exact P]]. }
  destruct X as (bt & r' & T & -> & Q). apply parse_clock_inv in Q. destruct Q as (h & mi & cl & r2 & K & -> & Q). destruct (tails_inv _ _ _ _ _ _ _ _ I Q) as (Y & D).
  destruct (number_of y m d R D) as (n & N). assert (DT : date_text (a ++ B"-" ++ b ++ B"-" ++ c) (Date y m d)) by (constructor; try assumption; apply valid_date_iff; auto).
  pose proof (unix_of_day _ _ h mi 0 0 N) as U0. cbn [dt_year dt_month dt_day] in U0.
  destruct Y as [(-> & ->)|[(w & k & f & W & K' & F & -> & ->)|(w & k & f & u & o & W & K' & F & Zo & -> & ->)]].
  - rewrite U0, app_nil_r. replace (n * 86400 + (h * 3600 + mi * 60) + 0 - 0) with (n * 86400 + (h * 3600 + mi * 60)) by lia. eapply tt_minutes; eassumption.
  - pose proof (unix_of_day _ _ h mi k 0 N) as U1. cbn [dt_year dt_month dt_day] in U1. rewrite U1. replace (n * 86400 + (h * 3600 + mi * 60) + k - 0) with (n * 86400 + (h * 3600 + mi * 60) + k) by lia. eapply tt_seconds; eassumption.
  - pose proof (unix_of_day _ _ h mi k o N) as U1. cbn [dt_year dt_month dt_day] in U1. rewrite U1. eapply tt_zone; eassumption.
Qed.
Lemma try_formats_inv l s z : try_formats l s = Some z -> exists f v, In f l /\ parse f s no_time = Some v /\ unix_of v = z.
Proof.
  induction l as [|f l IH]; [discriminate|]. cbn [try_formats]. destruct (parse f s no_time) as [v|] eqn:P.
  - intros E. injection E as <-. exists f, v. split; [left; reflexivity|auto].
  - intros E. destruct (IH E) as (f' & v & I & X). exists f', v. split; [right; exact I|exact X].
Qed.
Theorem stamp_text_sound s z : stamp_text s = Some z -> time_text true s z.
Proof.
  intros E. unfold stamp_text in E. rewrite formats_form in E. apply try_formats_inv in E. destruct E as (f & v & I & P & <-). apply in_app_or in I. destruct I as [I|[<-|[]]].
  - apply in_flat_map in I. destruct I as (l & L & [<-|[<-|[]]]); eapply clock_format_inv; eassumption.
  - apply parse_date_inv in P. destruct P as (y & m & d & a & b & c & r & A & Hb & C & R & -> & P). apply parse_end_inv in P. cbn [st_day st_month st_year] in P. destruct P as (-> & -> & D).
    destruct (number_of y m d R D) as (n & N). pose proof (unix_of_day _ _ 0 0 0 0 N) as U. cbn [dt_year dt_month dt_day] in U. rewrite U, app_nil_r.
    replace (n * 86400 + (0 * 3600 + 0 * 60) + 0 - 0) with (n * 86400) by lia. apply (tt_date true _ (Date y m d)); [constructor; try assumption; apply valid_date_iff; auto|exact N].
Qed.
Theorem stamp_text_iff s z : stamp_text s = Some z <-> time_text true s z.
Proof. split; [apply stamp_text_sound|apply stamp_text_complete]. Qed.

(** ** Texts that are written *)
Lemma digit_of_figure z : digit_of (figure z) = Some (z mod 10).
Proof.
  unfold figure. pose proof (Z.mod_pos_bound z 10 ltac:(lia)) as R. revert R. generalize (z mod 10). intros v R.
  assert (C : v = 0 \/ v = 1 \/ v = 2 \/ v = 3 \/ v = 4 \/ v = 5 \/ v = 6 \/ v = 7 \/ v = 8 \/ v = 9) by lia. repeat (destruct C as [->|C]; [reflexivity|]). subst. reflexivity.
Qed.
Lemma pad2_writes z : 0 <= z < 100 -> writes 2 z (pad2 z).
Proof.
  intros R. apply writes2. exists (figure (z / 10)), (figure z), (z / 10), (z mod 10). split; [reflexivity|]. rewrite !digit_of_figure.
  assert (z / 10 < 10) by (apply Z.div_lt_upper_bound; lia). pose proof (Z.div_pos z 10). pose proof (Z.div_mod z 10). rewrite (Z.mod_small (z / 10) 10) by lia. repeat split. lia.
Qed.
Lemma pad4_writes z : 0 <= z < 10000 -> writes 4 z (pad4 z).
Proof.
  intros R. apply writes4. exists (figure (z / 1000)), (figure (z / 100)), (figure (z / 10)), (figure z), (z / 1000), ((z / 100) mod 10), ((z / 10) mod 10), (z mod 10). split; [reflexivity|]. rewrite !digit_of_figure.
  assert (z / 1000 < 10) by (apply Z.div_lt_upper_bound; lia). pose proof (Z.div_pos z 1000). rewrite (Z.mod_small (z / 1000) 10) by lia. do 4 (split; [reflexivity|]).
  replace (z / 1000) with (z / 100 / 10) by (rewrite Z.div_div by lia; reflexivity). replace (z / 100) with (z / 10 / 10) by (rewrite Z.div_div by lia; reflexivity).
  pose proof (Z.div_mod z 10). pose proof (Z.div_mod (z / 10) 10). pose proof (Z.div_mod (z / 10 / 10) 10). lia.
Qed.
Lemma year_of n y m d : date_at n = Date y m d -> days_since 0 <= n < days_since 10000 -> 0 <= y < 10000.
Proof.
  intros E R. destruct (date_at_days n) as (V & N). rewrite E in V, N. destruct V as (M & D). unfold days in N. cbn [dt_year dt_month dt_day] in *. pose proof (year_day y m d M D) as Y. rewrite N in Y. split.
  - destruct (Z_lt_ge_dec y 0) as [L|L]; [|lia]. pose proof (days_since_mono (y + 1) 0 ltac:(lia)). lia.
  - destruct (Z_lt_ge_dec y 10000) as [L|L]; [lia|]. pose proof (days_since_mono 10000 y ltac:(lia)). lia.
Qed.
(** From the first second of the year 0 to the last of 9999. *)
Definition four_digits (z : Z) : Prop := -62167219200 <= z < 253402300800.
Lemma format_time_text loose z : four_digits z -> time_text loose (format_time z) z.
Proof.
  intros R. unfold four_digits in R. unfold format_time. set (n := z / 86400). assert (Hn : days_since 0 <= n + unix_days < days_since 10000).
  { change (days_since 0) with (-366). change (days_since 10000) with 3652059. unfold unix_days, n. pose proof (Z.div_mod z 86400). pose proof (Z.mod_pos_bound z 86400). lia. }
  pose proof (day_number_at n) as D. unfold date_at in D. destruct (abs_date (n + unix_days)) as [[y m] d] eqn:E.
  assert (E' : date_at (n + unix_days) = Date y m d) by (unfold date_at; rewrite E; reflexivity). pose proof (year_of _ _ _ _ E' Hn) as Y. destruct (date_at_days (n + unix_days)) as (V & _). rewrite E' in V. destruct V as (M & Da). cbn [dt_year dt_month dt_day] in M, Da.
  pose proof (days_in_pos m y M) as L. set (s := z mod 86400). assert (S0 : 0 <= s < 86400) by (apply Z.mod_pos_bound; lia). assert (Ez : z = n * 86400 + s) by (unfold n, s; pose proof (Z.div_mod z 86400); lia). clearbody n s.
  pose proof (Z.div_mod s 3600). pose proof (Z.mod_pos_bound s 3600). pose proof (Z.div_pos s 3600). assert (s / 3600 < 24) by (apply Z.div_lt_upper_bound; lia).
  set (q := s mod 3600) in *. assert (E6 : s mod 60 = q mod 60). { unfold q. rewrite (Z.div_mod s 3600) at 1 by lia. replace (3600 * (s / 3600) + s mod 3600) with (s mod 3600 + (60 * (s / 3600)) * 60) by lia. apply Z.mod_add. lia. }
  pose proof (Z.div_mod q 60). pose proof (Z.mod_pos_bound q 60). pose proof (Z.div_pos q 60). assert (q / 60 < 60) by (apply Z.div_lt_upper_bound; lia). rewrite E6.
  replace (pad4 y ++ B"-" ++ pad2 m ++ B"-" ++ pad2 d ++ B" " ++ pad2 (s / 3600) ++ B":" ++ pad2 (q / 60) ++ B":" ++ pad2 (q mod 60))
    with ((pad4 y ++ B"-" ++ pad2 m ++ B"-" ++ pad2 d) ++ B" " ++ (pad2 (s / 3600) ++ B":" ++ pad2 (q / 60)) ++ B":" ++ pad2 (q mod 60) ++ []) by (rewrite app_nil_r, <- !app_assoc; reflexivity).
  replace z with (n * 86400 + (s / 3600 * 3600 + q / 60 * 60) + q mod 60) by lia.
  eapply tt_seconds; [|exact D|apply (between_space loose 0); auto| |apply pad2_writes; lia|lia|constructor].
  - constructor; [apply pad4_writes; lia|apply pad2_writes; lia|apply pad2_writes; lia|apply valid_date_iff; auto].
  - apply (clock_text_of loose 2); [apply pad2_writes; lia|auto|lia|apply pad2_writes; lia|lia].
Qed.
(** The documented texts are among those that Go reads. *)
Lemma clock_loose c t : clock_text false c t -> clock_text true c t.
Proof. intros [k h m a b W K H W' M]. apply (clock_text_of true k); try assumption. destruct K as [K|(K & _)]; [auto|discriminate]. Qed.
Lemma between_loose b : between false b -> between true b.
Proof. intros [|n _]; constructor; auto. Qed.
Lemma fraction_loose f : fraction_text false f -> fraction_text true f.
Proof. intros [|p c s [P|(P & _)] C A]; [constructor| |discriminate P]; constructor; auto. Qed.
Lemma zone_loose u o : zone_text false u o -> zone_text true u o.
Proof. intros [east h m a b W W' G]. constructor; try assumption. cbv iota in *. lia. Qed.
Lemma time_loose s z : time_text false s z -> time_text true s z.
Proof.
  intros [s0 x n T D|s0 x n b c t T D Hb C|s0 x n b c t w k f T D Hb C W K F|s0 x n b c t w k f u o T D Hb C W K F U].
  - eapply tt_date; eassumption.
  - eapply tt_minutes; try eassumption; [apply between_loose, Hb|apply clock_loose, C].
  - eapply tt_seconds; try eassumption; [apply between_loose, Hb|apply clock_loose, C|apply fraction_loose, F].
  - eapply tt_zone; try eassumption; [apply between_loose, Hb|apply clock_loose, C|apply fraction_loose, F|apply zone_loose, U].
Qed.
(** No text of a time ends in Z. *)
Lemma writes_last k n s : writes (S k) n s -> exists s0 c, s = s0 ++ [c] /\ In c figures.
Proof. intros W. apply writes_S in W. destruct W as (n0 & s0 & a & v & _ & -> & D & _). exists s0, a. split; [reflexivity|]. apply digit_of_In. eauto. Qed.
Definition digit_last (s : bytes) : Prop := exists s0 c, s = s0 ++ [c] /\ In c figures.
Lemma digit_last_app a s : digit_last s -> digit_last (a ++ s).
Proof. intros (s0 & c & -> & I). exists (a ++ s0), c. split; [apply app_assoc|exact I]. Qed.
Lemma digit_last_cons a s : digit_last s -> digit_last (a :: s).
Proof. apply (digit_last_app [a]). Qed.
Lemma fraction_last loose f : fraction_text loose f -> f = [] \/ digit_last f.
Proof.
  intros [|p c s P C A]; [auto|]. right. apply digit_last_cons. destruct (rev s) as [|x r] eqn:E.
  - apply (f_equal (@rev ascii)) in E. rewrite rev_involutive in E. subst s. exists [], c. auto.
  - apply (f_equal (@rev ascii)) in E. rewrite rev_involutive in E. cbn [rev] in E. subst s. exists (c :: rev r), x. split; [reflexivity|]. apply A, in_or_app. right. left. reflexivity.
Qed.
Lemma time_text_last loose s z : time_text loose s z -> digit_last s.
Proof.
  intros [s0 x n T D|s0 x n b c t T D Hb C|s0 x n b c t w k f T D Hb C W K F|s0 x n b c t w k f u o T D Hb C W K F U].
  - destruct T as [y m d a b c _ _ W _]. do 4 apply digit_last_app. eapply writes_last, W.
  - do 2 apply digit_last_app. destruct C as [k h m a b0 _ _ _ W _]. do 2 apply digit_last_app. eapply writes_last, W.
  - do 4 apply digit_last_app. destruct (fraction_last _ _ F) as [->|L]; [rewrite app_nil_r; eapply writes_last, W|apply digit_last_app, L].
  - do 6 apply digit_last_app. destruct U as [east h m a b0 _ W' _]. apply digit_last_cons. do 2 apply digit_last_app. eapply writes_last, W'.
Qed.
Lemma trim_Z s z loose : time_text loose s z -> trim_suffix s (B"Z") = s.
Proof.
  intros T. apply time_text_last in T. destruct T as (s0 & c & -> & I). apply trim_suffix_none. destruct (has_suffix _ _) eqn:E; [|reflexivity]. apply has_suffix_iff in E. destruct E as (y & E). apply app_inj_tail in E. destruct E as (_ & ->).
  exfalso. cbn in I. repeat (destruct I as [I|I]; [discriminate I|]). exact I.
Qed.
