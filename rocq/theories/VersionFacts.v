(** Version numbers. *)
From Verif Require Import GoStr GoStrFacts ModelCatalog DdlFacts ModelVersion SpecVersion.
From Coq Require Import ZifyBool ZifyNat.

Lemma contains_iff s p : contains s p = true <-> exists a b, s = a ++ p ++ b.
Proof.
  unfold contains. split.
  - intros H. destruct (cut p s) as [[a b]|] eqn:E; [|discriminate H]. exists a, b. clear H. revert a b E.
    induction s as [|x s IH]; intros a b; cbn [cut].
    + destruct (strip_prefix p []) as [r|] eqn:P; [|discriminate]. intros [= <- <-]. apply strip_prefix_Some in P. exact P.
    + destruct (strip_prefix p (x :: s)) as [r|] eqn:P; [intros [= <- <-]; apply strip_prefix_Some in P; exact P|].
      destruct (cut p s) as [[u v]|]; [|discriminate]. intros [= <- <-]. cbn [app]. rewrite <- (IH u v eq_refl). reflexivity.
  - intros (a & b & ->). induction a as [|x a IH].
    + assert (E : strip_prefix p (p ++ b) = Some b) by (apply strip_prefix_Some; reflexivity). cbn [app]. destruct (p ++ b) as [|y l] eqn:Q; cbn [cut]; rewrite E; reflexivity.
    + cbn [app cut]. destruct (strip_prefix p (x :: a ++ p ++ b)); [reflexivity|]. destruct (cut p (a ++ p ++ b)) as [[u v]|]; [reflexivity|discriminate IH].
Qed.

(** ** Numbers *)
Lemma digit_not c : is_digit c = true -> c <> "."%char /\ c <> "-"%char /\ c <> "+"%char /\ c <> SPACE /\ c <> "M"%char.
Proof. intros D. repeat split; intros ->; discriminate D. Qed.
Lemma dec_chars n c : In c (N_dec n) -> is_digit c = true.
Proof. intros I. exact (proj1 (Forall_forall _ _) (N_dec_digits n) c I). Qed.
Lemma dec_all n : all_digits (N_dec n) = true.
Proof.
  unfold all_digits. destruct (N_dec n) eqn:E; [destruct (N_dec_nonempty n E)|]. rewrite <- E. apply forallb_forall. intros c I. exact (dec_chars n c I).
Qed.
Lemma parse_dec n : (n < 2 ^ 63)%N -> parse_int (N_dec n) = Some (Z.of_N n).
Proof.
  intros L. unfold parse_int. pose proof (dec_all n) as D. pose proof (dec_N_N_dec n) as V. pose proof (dec_chars n) as C.
  destruct (N_dec n) as [|c s] eqn:E; [destruct (N_dec_nonempty n E)|]. destruct (digit_not c (C c (or_introl eq_refl))) as (_ & A & P & _).
  rewrite (proj2 (ceqb_neq c "-") A), (proj2 (ceqb_neq c "+") P), D, V. replace ((- 2 ^ 63 <=? Z.of_N n)%Z && (Z.of_N n <? 2 ^ 63)%Z) with true by lia. reflexivity.
Qed.
(** A number that is followed by something else is none. *)
Lemma parse_tail n c s : is_digit c = false -> parse_int (N_dec n ++ c :: s) = None.
Proof.
  intros D. unfold parse_int. pose proof (dec_chars n) as C.
  destruct (N_dec n) as [|x t] eqn:E; [destruct (N_dec_nonempty n E)|]. destruct (digit_not x (C x (or_introl eq_refl))) as (_ & A & P & _). cbn [app].
  rewrite (proj2 (ceqb_neq x "-") A), (proj2 (ceqb_neq x "+") P). unfold all_digits. replace (forallb is_digit (x :: t ++ c :: s)) with false; [reflexivity|].
  symmetry. change (x :: t ++ c :: s) with ((x :: t) ++ c :: s). rewrite forallb_app. cbn [forallb]. rewrite D. cbn [andb]. rewrite andb_false_r. reflexivity.
Qed.
Lemma parse_nums l : Forall (fun n => (n < 2 ^ 63)%N) l -> parse_all (map N_dec l) = Ok (map Z.of_N l).
Proof. intros H. induction H as [|n l Hn H IH]; [reflexivity|]. cbn [map parse_all]. rewrite (parse_dec n Hn), IH. reflexivity. Qed.

Lemma split_first c w rest : ~ In c w -> split_byte c (w ++ c :: rest) = w :: split_byte c rest.
Proof.
  induction w as [|x w IH]; intros N; cbn [app split_byte].
  - rewrite ceqb_refl. reflexivity.
  - rewrite (proj2 (ceqb_neq x c)) by (intros ->; apply N; left; reflexivity). rewrite IH by (intros I; apply N; right; exact I). reflexivity.
Qed.
Lemma split_prefix c w rest : ~ In c w -> exists s l, split_byte c (w ++ rest) = (w ++ s) :: l /\ (forall x r, rest = x :: r -> x <> c -> exists s', s = x :: s').
Proof.
  induction w as [|x w IH]; intros N; cbn [app].
  - destruct rest as [|y r]; [exists [], []; split; [reflexivity|discriminate]|]. cbn [split_byte]. destruct (ceqb_spec y c) as [E|E].
    + exists [], (split_byte c r). split; [reflexivity|]. intros x r' [= <- <-]. congruence.
    + destruct (split_byte c r) as [|u v]; [exists [y], []|exists (y :: u), v]; (split; [reflexivity|]; intros x r' [= <- <-] _; eexists; reflexivity).
  - destruct IH as (s & l & E & H); [intros I; apply N; right; exact I|]. exists s, l. split; [|exact H]. cbn [split_byte]. rewrite (proj2 (ceqb_neq x c)) by (intros ->; apply N; left; reflexivity).
    rewrite E. reflexivity.
Qed.
Lemma dec_no_dot n : ~ In "."%char (N_dec n).
Proof. intros I. destruct (digit_not _ (dec_chars n _ I)) as (A & _). congruence. Qed.
Lemma join_two (a b : bytes) l : join (B".") (a :: b :: l) = a ++ "."%char :: join (B".") (b :: l).
Proof. reflexivity. Qed.
Lemma parse_wrong l c s : l <> [] -> is_digit c = false -> c <> "."%char -> parse_all (split_byte "."%char (join (B".") (map N_dec l) ++ c :: s)) = Err.
Proof.
  intros N D C. induction l as [|n l IH]; [congruence|]. destruct l as [|m l].
  - cbn [map join]. destruct (split_prefix "."%char (N_dec n) (c :: s) (dec_no_dot n)) as (t & k & E & H). destruct (H c s eq_refl C) as (t' & ->). rewrite E. cbn [parse_all].
    rewrite (parse_tail n c t' D). reflexivity.
  - cbn [map] in *. rewrite join_two, <- app_assoc. cbn [app]. rewrite split_first by apply dec_no_dot. cbn [parse_all]. rewrite IH by discriminate. cbn [bindr]. destruct (parse_int (N_dec n)); reflexivity.
Qed.
Lemma parse_right l : l <> [] -> Forall (fun n => (n < 2 ^ 63)%N) l -> parse_all (split_byte "."%char (join (B".") (map N_dec l))) = Ok (map Z.of_N l).
Proof.
  intros N F. change (B".") with ["."%char]. rewrite split_byte_join; [exact (parse_nums l F)|destruct l; [congruence|discriminate]|].
  apply Forall_forall. intros w I. apply in_map_iff in I as (n & <- & _). apply dec_no_dot.
Qed.
Lemma text_chars l c : In c (join (B".") (map N_dec l)) -> is_digit c = true \/ c = "."%char.
Proof.
  induction l as [|n l IH]; [intros []|]. destruct l as [|m l].
  - cbn [map join]. intros I. left. exact (dec_chars n c I).
  - cbn [map] in *. rewrite join_two. intros I. apply in_app_or in I as [I|[I|I]]; [left; exact (dec_chars n c I)|right; symmetry; exact I|exact (IH I)].
Qed.
Lemma before_tail l c s : c <> "."%char -> is_digit c = false -> before c (join (B".") (map N_dec l) ++ c :: s) = join (B".") (map N_dec l).
Proof.
  intros N D. unfold before. rewrite cut_byte_app; [reflexivity|]. intros I. destruct (text_chars l c I); congruence.
Qed.
Lemma before_none l c s : ~ In c s -> c <> "."%char -> is_digit c = false -> before c (join (B".") (map N_dec l) ++ s) = join (B".") (map N_dec l) ++ s.
Proof.
  intros N E D. unfold before. rewrite (proj2 (cut_byte_None c _)); [reflexivity|]. intros I. apply in_app_or in I as [I|I]; [destruct (text_chars l c I); congruence|exact (N I)].
Qed.
Lemma contains_tail l t : contains (join (B".") (map N_dec l) ++ t) (B"MariaDB") = true <-> exists a b, t = a ++ B"MariaDB" ++ b.
Proof.
  rewrite contains_iff. split.
  - intros (a & b & E). assert (G : forall p, ~ In "M"%char p -> p ++ t = a ++ B"MariaDB" ++ b -> exists a' b', t = a' ++ B"MariaDB" ++ b').
    { clear. intros p. revert a. induction p as [|x p IH]; intros a N E; [exists a, b; exact E|]. destruct a as [|y a].
      - injection E as -> _. exfalso. apply N. left. reflexivity.
      - injection E as _ E. apply (IH a); [intros I; apply N; right; exact I|exact E]. }
    apply (G (join (B".") (map N_dec l))); [|exact E]. intros I. destruct (text_chars l _ I) as [D|D]; discriminate D.
  - intros (a & b & ->). exists (join (B".") (map N_dec l) ++ a), b. rewrite <- app_assoc. reflexivity.
Qed.
Theorem version_read d r : release_ok d r -> clear_tail d r -> version_nums d (reported r) = Ok (map Z.of_N (rl_nums r)).
Proof.
  intros (N & F & T) C. unfold version_nums, reported. destruct r as [l t]. cbn [rl_nums rl_tail] in *. unfold version_text. unfold clear_tail in C. cbn [rl_tail] in C. destruct C as [->|[(-> & s & ->)|(-> & a & b & E)]].
  - rewrite app_nil_r. destruct d; try exact (parse_right l N F).
    + pose proof (before_none l SPACE [] (fun x => x) ltac:(discriminate) eq_refl) as E. rewrite app_nil_r in E. rewrite E. exact (parse_right l N F).
    + pose proof (before_none l "-"%char [] (fun x => x) ltac:(discriminate) eq_refl) as E. rewrite app_nil_r in E. rewrite E.
      destruct (contains _ _); exact (parse_right l N F).
  - change (B" " ++ s) with (SPACE :: s). rewrite before_tail by (discriminate || reflexivity). exact (parse_right l N F).
  - rewrite (proj2 (contains_tail l t)) by (exists a, b; exact E). destruct t as [|c t]; [destruct a; discriminate E|]. subst c. rewrite before_tail by (discriminate || reflexivity). exact (parse_right l N F).
Qed.
Theorem version_refused d r : release_ok d r -> ~ clear_tail d r -> version_nums d (reported r) = Err.
Proof.
  intros (N & F & T) C. unfold version_nums, reported. destruct r as [l t]. cbn [rl_nums rl_tail] in *. unfold version_text. unfold clear_tail in C. cbn [rl_tail] in C.
  destruct t as [|c t]; [exfalso; apply C; left; reflexivity|]. destruct d; try discriminate T; try contradiction T.
  - destruct T as (T1 & T2). destruct (ceqb_spec c SPACE) as [E|E]; [exfalso; apply C; right; left; split; [reflexivity|]; exists t; subst c; reflexivity|].
    unfold before. destruct (cut_byte SPACE _) as [[u v]|] eqn:Q; [|apply parse_wrong; assumption].
    apply cut_byte_Some in Q as (Q & Nu).
    assert (G : exists t', u = join (B".") (map N_dec l) ++ c :: t').
    { assert (H : forall p, ~ In SPACE p -> p ++ c :: t = u ++ SPACE :: v -> exists t', u = p ++ c :: t').
      { clear -E. intros p. revert u. induction p as [|x p IH]; intros u Np H.
        - destruct u as [|y u]; injection H as H1 H2; [congruence|]. subst y. exists u. reflexivity.
        - destruct u as [|y u]; injection H as H1 H2; [exfalso; apply Np; left; exact H1|]. subst y. destruct (IH u) as (t' & ->); [intros I; apply Np; right; exact I|exact H2|]. exists t'. reflexivity. }
      apply H; [|exact Q]. intros I. destruct (text_chars l _ I) as [D|D]; discriminate D. }
    destruct G as (t' & ->). apply parse_wrong; assumption.
  - subst c. replace (contains _ _) with false; [apply parse_wrong; [exact N|reflexivity|discriminate]|]. symmetry. destruct (contains _ _) eqn:Q; [|reflexivity].
    apply contains_tail in Q. exfalso. apply C. right. right. split; [reflexivity|exact Q].
Qed.
