(** Facts about trimming and upper-casing. *)
From Verif Require Import GoStr GoStrFacts.
From Coq Require Import ZifyBool ZifyNat.

Definition clean (s : bytes) : Prop :=
  match s with [] => True | c :: _ => is_space c = false end.
(** No white space at either end. *)
Definition trimmed (s : bytes) : Prop := clean s /\ clean (rev s).

Lemma trim_left_clean s : clean (trim_left s).
Proof. induction s as [|c s IH]; cbn; [exact I|]. destruct (is_space c) eqn:E; [exact IH | exact E]. Qed.

Lemma trim_left_id s : clean s -> trim_left s = s.
Proof. destruct s as [|c s]; cbn; [reflexivity|]. intros ->. reflexivity. Qed.

Lemma trim_left_suffix s : exists sp, s = sp ++ trim_left s /\ Forall (fun c => is_space c = true) sp.
Proof.
  induction s as [|c s (sp & IH & Hsp)].
  - exists []. split; [reflexivity|constructor].
  - cbn. destruct (is_space c) eqn:E.
    + exists (c :: sp). split; [cbn; f_equal; exact IH | constructor; assumption].
    + exists []. split; [reflexivity|constructor].
Qed.

Lemma trim_right_prefix s : exists sp, s = trim_right s ++ sp /\ Forall (fun c => is_space c = true) sp.
Proof.
  destruct (trim_left_suffix (rev s)) as (sp & H & Hsp). exists (rev sp). split.
  - unfold trim_right. rewrite <- rev_app_distr, <- H, rev_involutive. reflexivity.
  - apply Forall_rev. exact Hsp.
Qed.

Lemma trim_right_clean s : clean (rev (trim_right s)).
Proof. unfold trim_right. rewrite rev_involutive. apply trim_left_clean. Qed.

Lemma clean_app_prefix a b : clean (a ++ b) -> a <> [] -> clean a.
Proof. destruct a; [congruence|]. intros H _. exact H. Qed.

Lemma trim_space_trimmed s : trimmed (trim_space s).
Proof.
  unfold trim_space. split; [|apply trim_right_clean].
  destruct (trim_right_prefix (trim_left s)) as (sp & H & _).
  pose proof (trim_left_clean s) as Hc.
  destruct (trim_right (trim_left s)) as [|c r] eqn:E; [exact I|].
  rewrite H in Hc. exact Hc.
Qed.

Lemma trim_space_id s : trimmed s -> trim_space s = s.
Proof.
  intros [H1 H2]. unfold trim_space, trim_right. rewrite (trim_left_id s H1), (trim_left_id _ H2).
  apply rev_involutive.
Qed.

Lemma trim_space_idem s : trim_space (trim_space s) = trim_space s.
Proof. apply trim_space_id, trim_space_trimmed. Qed.

Lemma trim_space_sub s : exists a b, s = a ++ trim_space s ++ b
  /\ Forall (fun c => is_space c = true) a /\ Forall (fun c => is_space c = true) b.
Proof.
  destruct (trim_left_suffix s) as (a & Ha & Hsa).
  destruct (trim_right_prefix (trim_left s)) as (b & Hb & Hsb).
  exists a, b. unfold trim_space. rewrite <- Hb. auto.
Qed.

Lemma In_trim_space c s : is_space c = false -> In c (trim_space s) <-> In c s.
Proof.
  intros Hc. destruct (trim_space_sub s) as (a & b & E & Ha & Hb).
  split; intros H.
  - rewrite E. apply in_or_app. right. apply in_or_app. left. exact H.
  - rewrite E in H. rewrite Forall_forall in Ha, Hb.
    apply in_app_or in H as [H|H]; [apply Ha in H; congruence|].
    apply in_app_or in H as [H|H]; [exact H|apply Hb in H; congruence].
Qed.

Lemma to_upper_c_idem c : to_upper_c (to_upper_c c) = to_upper_c c.
Proof.
  unfold to_upper_c. destruct (is_lower c) eqn:E; [|rewrite E; reflexivity].
  assert (H : is_lower (ascii_of_nat (cn c - 32)) = false).
  { unfold is_lower, cn in *. rewrite nat_ascii_embedding by (pose proof (cn_bound c); unfold cn in *; lia). lia. }
  rewrite H. reflexivity.
Qed.

Lemma to_upper_idem s : to_upper (to_upper s) = to_upper s.
Proof. unfold to_upper. rewrite map_map. apply map_ext. apply to_upper_c_idem. Qed.

Lemma to_upper_app a b : to_upper (a ++ b) = to_upper a ++ to_upper b.
Proof. apply map_app. Qed.

Lemma is_space_upper c : is_space (to_upper_c c) = is_space c.
Proof.
  unfold to_upper_c. destruct (is_lower c) eqn:E; [|reflexivity].
  unfold is_lower in E. unfold is_space, cn in *.
  rewrite nat_ascii_embedding by (pose proof (cn_bound c); unfold cn in *; lia). lia.
Qed.

Lemma clean_upper s : clean s -> clean (to_upper s).
Proof. destruct s; cbn; [trivial|]. rewrite is_space_upper. trivial. Qed.

Lemma trimmed_upper s : trimmed s -> trimmed (to_upper s).
Proof.
  intros [H1 H2]. split; [apply clean_upper; exact H1|].
  unfold to_upper. rewrite <- map_rev. apply (clean_upper (rev s)). exact H2.
Qed.

(** A character that is not a letter is unaffected. *)
Lemma In_upper c s : is_letter c = false -> In c (to_upper s) <-> In c s.
Proof.
  intros Hc. unfold to_upper. rewrite in_map_iff. split.
  - intros (x & E & Hx). unfold to_upper_c in E. destruct (is_lower x) eqn:El; [|subst; exact Hx].
    exfalso. unfold is_letter in Hc. subst c. unfold is_lower, is_upper, cn in *.
    rewrite nat_ascii_embedding in Hc by (pose proof (cn_bound x); unfold cn in *; lia). lia.
  - intros H. exists c. split; [|exact H]. unfold to_upper_c.
    unfold is_letter in Hc. apply orb_false_iff in Hc as [-> _]. reflexivity.
Qed.

(** Upper-case text. *)
Definition upper (s : bytes) : Prop := to_upper s = s.

Lemma upper_app_inv a b : upper (a ++ b) -> upper a /\ upper b.
Proof.
  unfold upper. rewrite to_upper_app. intros H.
  assert (H0 : List.length (to_upper a) = List.length a) by apply map_length.
  assert (H1 : forall (a' b' x y : bytes), List.length a' = List.length x -> a' ++ b' = x ++ y -> a' = x /\ b' = y).
  { clear. induction a' as [|c a' IH]; intros b' [|d x] y Hl He; try discriminate; [auto|].
    cbn in *. injection He as -> He. injection Hl as Hl. destruct (IH b' x y Hl He) as [-> ->]. auto. }
  eapply H1; [exact H0|exact H].
Qed.

Lemma upper_app a b : upper a -> upper b -> upper (a ++ b).
Proof. unfold upper. rewrite to_upper_app. intros -> ->. reflexivity. Qed.

Lemma upper_trim s : upper s -> upper (trim_space s).
Proof.
  intros H. destruct (trim_space_sub s) as (a & b & E & _). rewrite E in H.
  apply upper_app_inv in H as [_ H]. apply upper_app_inv in H as [H _]. exact H.
Qed.

Lemma upper_to_upper s : upper (to_upper s).
Proof. apply to_upper_idem. Qed.
