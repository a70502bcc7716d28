(** C89: the version of every server is read. *)
From Verif Require Import GoStr GoStrFacts ModelCatalog ModelVersion SpecVersion VersionFacts.

Definition C89_claim (d : dialect) (r : release) : Prop := version_nums d (reported r) = Ok (map Z.of_N (rl_nums r)).
Definition C89_full : Prop := forall d r, release_ok d r -> C89_claim d r.

(** Missing: releases with something behind the numbers, except for what follows a blank (Postgres) and releases of
    MariaDB.  These are refused; no version is read wrongly. *)
Theorem C89_partial : forall d r, release_ok d r ->
  (clear_tail d r -> C89_claim d r) /\ (~ clear_tail d r -> version_nums d (reported r) = Err).
Proof. intros d r O. split; [exact (version_read d r O)|exact (version_refused d r O)]. Qed.
Theorem C89_never_wrong : forall d r l, release_ok d r -> version_nums d (reported r) = Ok l -> l = map Z.of_N (rl_nums r).
Proof.
  intros d r l O E. destruct (C89_partial d r O) as (P & Q).
  assert (D : ~ ~ clear_tail d r) by (intros N; rewrite (Q N) in E; discriminate E).
  destruct (list_eq_dec Z.eq_dec l (map Z.of_N (rl_nums r))) as [H|H]; [exact H|]. exfalso. apply D. intros C. apply H. pose proof (P C) as X. unfold C89_claim in X. congruence.
Qed.

(** Whatever a server reports, what is read are the numbers that it begins with, all of them, between dots. *)
Lemma parse_reads : forall w z, parse_int w = Some z -> reads w z.
Proof.
  intros w z. unfold parse_int.
  assert (G : forall (neg : bool) t sign, w = sign ++ t -> (if neg then sign = B"-" else sign = [] \/ sign = B"+") ->
    (if all_digits t then match dec_N t with Some n => let z0 := if neg then (- Z.of_N n)%Z else Z.of_N n in
       if (- 2 ^ 63 <=? z0)%Z && (z0 <? 2 ^ 63)%Z then Some z0 else None | None => None end else None) = Some z -> reads w z).
  { intros neg t sign W S. destruct (all_digits t); [|discriminate]. destruct (dec_N t) as [n|] eqn:D; [|discriminate]. cbv zeta.
    set (z0 := if neg then (- Z.of_N n)%Z else Z.of_N n). destruct ((- 2 ^ 63 <=? z0)%Z && (z0 <? 2 ^ 63)%Z) eqn:Q; [|discriminate].
    intros E. injection E as <-. exists sign, t, n. apply andb_true_iff in Q as (Q1 & Q2). apply Z.leb_le in Q1. apply Z.ltb_lt in Q2.
    split; [exact W|]. split; [exact D|]. split; [split; assumption|]. unfold z0. destruct neg; [right|left]; split; auto. }
  destruct w as [|c t]; cbv zeta iota beta.
  - apply (G false [] []); auto.
  - destruct (ceqb_spec c "-") as [->|Nm]; [apply (G true t (B"-")); auto|].
    destruct (ceqb_spec c "+") as [->|Np]; [apply (G false t (B"+")); auto|]. apply (G false (c :: t) []); auto.
Qed.
Lemma parse_all_reads : forall ws l, parse_all ws = Ok l -> Forall2 reads ws l.
Proof.
  induction ws as [|w ws IH]; intros l; cbn [parse_all]; [intros E; injection E as <-; constructor|].
  destruct (parse_int w) as [z|] eqn:P; [|discriminate]. destruct (parse_all ws) as [zs| |]; cbn [bindr]; try discriminate.
  intros E. injection E as <-. constructor; [apply parse_reads, P|apply IH; reflexivity].
Qed.
Lemma split_not_nil : forall c s, split_byte c s <> [].
Proof. intros c s. destruct s as [|x s]; cbn [split_byte]; [discriminate|]. destruct (ceqb x c); [discriminate|]. destruct (split_byte c s); discriminate. Qed.
Lemma split_joined : forall s, join (B".") (split_byte "."%char s) = s.
Proof.
  induction s as [|x s IH]; [reflexivity|]. cbn [split_byte]. destruct (ceqb_spec x ".") as [->|N].
  - pose proof (split_not_nil "."%char s) as NN. destruct (split_byte "."%char s) as [|w l] eqn:E; [contradiction|]. rewrite join_two, IH. reflexivity.
  - pose proof (split_not_nil "."%char s) as NN. destruct (split_byte "."%char s) as [|w l] eqn:E; [contradiction|]. rewrite <- IH. destruct l; reflexivity.
Qed.
Lemma before_split : forall c s, exists tail, s = before c s ++ tail /\ (tail = [] \/ exists t, tail = c :: t).
Proof.
  intros c s. unfold before. destruct (cut_byte c s) as [[a b]|] eqn:E.
  - apply cut_byte_Some in E as (-> & _). exists (c :: b). eauto.
  - exists []. rewrite app_nil_r. auto.
Qed.
Theorem C89_accepts : forall d v l, version_nums d v = Ok l ->
  exists ws tail, v = join (B".") ws ++ tail /\ ws <> [] /\ Forall2 reads ws l /\ may_follow d v tail.
Proof.
  intros d v l E. unfold version_nums in E. pose proof (parse_all_reads _ _ E) as F.
  assert (T : exists tail, v = version_text d v ++ tail /\ may_follow d v tail).
  { unfold may_follow. destruct d; try (exists []; rewrite app_nil_r; auto; fail); cbn [version_text].
    - destruct (before_split SPACE v) as (tail & E1 & [->|(t & ->)]); [exists []; auto|]. exists (SPACE :: t). split; [exact E1|]. right. left. split; [reflexivity|]. exists t. reflexivity.
    - destruct (contains v (B"MariaDB")) eqn:C; [|exists []; rewrite app_nil_r; auto]. apply contains_iff in C.
      destruct (before_split "-"%char v) as (tail & E1 & [->|(t & ->)]); [exists []; auto|]. exists ("-"%char :: t). split; [exact E1|]. right. right. split; [reflexivity|].
      split; [exists t; reflexivity|exact C]. }
  destruct T as (tail & V & M). exists (split_byte "."%char (version_text d v)), tail. rewrite split_joined. split; [exact V|]. split; [apply split_not_nil|]. split; [exact F|exact M].
Qed.

(** MySQL of Ubuntu (8.0.32-0ubuntu0.22.04.2) and with a log (5.7.44-log), Postgres 16beta1: nothing can be read
    from such a server. *)
Definition ubuntu : release := Release [8; 0; 32]%N (B"-0ubuntu0.22.04.2").
Definition with_log : release := Release [5; 7; 44]%N (B"-log").
Definition beta : release := Release [16]%N (B"beta1").
Lemma nums_ok d l t : l <> [] -> forallb (fun n => n <? 1000)%N l = true ->
  match d with
  | Postgres => match t with c :: _ => is_digit c = false /\ c <> "."%char | [] => True end
  | MySQL => match t with c :: _ => c = "-"%char | [] => True end
  | SQLite | SQLServer => t = []
  | Other => False
  end -> release_ok d (Release l t).
Proof.
  intros N F T. split; [exact N|]. split; [|exact T]. apply Forall_forall. intros n I. pose proof (proj1 (forallb_forall _ _) F n I) as H. cbn beta in H. apply N.ltb_lt in H.
  eapply N.lt_trans; [exact H|]. reflexivity.
Qed.
Theorem C89_refuted_mysql : release_ok MySQL ubuntu /\ version_nums MySQL (reported ubuntu) = Err /\ release_ok MySQL with_log /\ version_nums MySQL (reported with_log) = Err.
Proof. split; [apply nums_ok; [discriminate|reflexivity|reflexivity]|]. split; [vm_compute; reflexivity|]. split; [apply nums_ok; [discriminate|reflexivity|reflexivity]|vm_compute; reflexivity]. Qed.
Theorem C89_refuted_postgres : release_ok Postgres beta /\ version_nums Postgres (reported beta) = Err.
Proof. split; [apply nums_ok; [discriminate|reflexivity|split; [reflexivity|discriminate]]|vm_compute; reflexivity]. Qed.
Theorem C89_refuted : ~ C89_full.
Proof. intros H. destruct C89_refuted_mysql as (O & E & _). pose proof (H _ _ O) as X. unfold C89_claim in X. rewrite E in X. discriminate X. Qed.

(** 15.2 (Debian 15.2-1.pgdg110+1) and 10.11.2-MariaDB-1:10.11.2+maria~ubu2204 *)
Definition debian : release := Release [15; 2]%N (B" (Debian 15.2-1.pgdg110+1)").
Definition maria : release := Release [10; 11; 2]%N (B"-MariaDB-1:10.11.2+maria~ubu2204").
Example C89_example : release_ok Postgres debian /\ clear_tail Postgres debian /\ version_nums Postgres (B"15.2 (Debian 15.2-1.pgdg110+1)") = Ok [15; 2]%Z
  /\ release_ok MySQL maria /\ clear_tail MySQL maria /\ version_nums MySQL (B"10.11.2-MariaDB-1:10.11.2+maria~ubu2204") = Ok [10; 11; 2]%Z
  /\ release_ok SQLServer (Release [15; 0; 200; 5]%N []) /\ clear_tail SQLServer (Release [15; 0; 200; 5]%N []).
Proof.
  split; [apply nums_ok; [discriminate|reflexivity|split; [reflexivity|discriminate]]|]. split; [right; left; split; [reflexivity|eexists; reflexivity]|]. split; [vm_compute; reflexivity|].
  split; [apply nums_ok; [discriminate|reflexivity|reflexivity]|]. split; [right; right; split; [reflexivity|exists (B"-"), (B"-1:10.11.2+maria~ubu2204"); reflexivity]|]. split; [vm_compute; reflexivity|].
  split; [apply nums_ok; [discriminate|reflexivity|reflexivity]|left; reflexivity].
Qed.
Print Assumptions C89_partial.
Print Assumptions C89_never_wrong.
Print Assumptions C89_refuted.
Print Assumptions C89_refuted_mysql.
Print Assumptions C89_refuted_postgres.
Print Assumptions C89_accepts.
