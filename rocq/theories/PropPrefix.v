(** Property C123: migrations that are generated one after the other. *)
From Coq Require Import Lia ZifyBool Permutation.
From Verif Require Import GoStr GoStrFacts ModelSq ModelHistory HistoryFacts ModelCatalog ModelDdl ModelDiff ModelDiffSql SpecDiff DiffLookup DiffFacts DiffSegments DiffNames DiffRun DiffWitness
  ModelStamp SpecStamp StampDays StampText ModelPrefix SpecPrefix.
Open Scope Z_scope.

(** ** Digits *)
Lemma digit_of_cn c v : digit_of c = Some v -> Z.of_nat (cn c) = v + 48.
Proof. destruct c as [[] [] [] [] [] [] [] []]; cbv; intros E; try discriminate E; injection E as <-; reflexivity. Qed.
Lemma writes_bound k n s : writes k n s -> 0 <= n.
Proof. apply writes_nonneg. Qed.
Lemma bltb_cut p q r r' : List.length p = List.length q -> bltb p q = true -> bltb (p ++ r) (q ++ r') = true.
Proof.
  revert q. induction p as [|x p IH]; intros [|y q] L H; try discriminate. cbn [app bltb] in *. destruct (cn x <? cn y)%nat; [reflexivity|]. destruct (cn y <? cn x)%nat; [discriminate|].
  apply IH; [cbn in L; congruence|exact H].
Qed.
Lemma writes_length k n s : writes k n s -> List.length s = k.
Proof. induction 1 as [|k n s i c _ IH _]; [reflexivity|]. rewrite app_length, IH. cbn. apply Nat.add_1_r. Qed.
Lemma writes_fun k n s n' : writes k n s -> writes k n' s -> n = n'.
Proof.
  revert n s n'. induction k as [|k IH]; intros n s n' W W'; [inversion W; inversion W'; congruence|].
  apply writes_S in W, W'. destruct W as (a & s1 & c & v & W & -> & D & ->), W' as (a' & s1' & c' & v' & W' & E & D' & ->).
  apply app_inj_tail in E. destruct E as (-> & ->). rewrite (IH _ _ _ W W'). congruence.
Qed.
Lemma writes_less k n s n' s' : writes k n s -> writes k n' s' -> n < n' -> bltb s s' = true.
Proof.
  revert n s n' s'. induction k as [|k IH]; intros n s n' s' W W' L; [inversion W; inversion W'; lia|].
  apply writes_S in W, W'. destruct W as (a & s1 & c & v & W & -> & D & ->), W' as (a' & s1' & c' & v' & W' & -> & D' & ->).
  pose proof (digit_of_range _ _ D). pose proof (digit_of_range _ _ D'). destruct (Z.lt_trichotomy a a') as [A|[A|A]]; [| |lia].
  - apply bltb_cut; [rewrite (writes_length _ _ _ W), (writes_length _ _ _ W'); reflexivity|eapply IH; eassumption].
  - subst a'. assert (s1 = s1') as ->.
    { destruct (list_eq_dec ascii_dec s1 s1') as [E|N]; [exact E|]. exfalso. clear -W W' N. revert a s1 s1' W W' N. induction k as [|k IH]; intros a s1 s1' W W' N; [inversion W; inversion W'; congruence|].
      apply writes_S in W, W'. destruct W as (x & t & c & v & W & -> & D & E), W' as (x' & t' & c' & v' & W' & -> & D' & E').
      pose proof (digit_of_range _ _ D). pose proof (digit_of_range _ _ D'). assert (x = x' /\ v = v') as (-> & ->) by lia.
      apply digit_of_iff in D, D'. destruct D as (i & D & Ei), D' as (j & D' & Ej). assert (i = j) by lia. subst j. apply (IH x' t t' W W'). intros ->. apply N. congruence. }
    rewrite bltb_app_same. cbn [bltb]. pose proof (digit_of_cn _ _ D). pose proof (digit_of_cn _ _ D'). destruct (Nat.ltb_spec (cn c) (cn c')); [reflexivity|lia].
Qed.
Lemma writes_app j a s k b t : writes j a s -> writes k b t -> writes (k + j) (a * 10 ^ Z.of_nat k + b) (s ++ t).
Proof.
  intros W W'. induction W' as [|k b t i c W' IH E]; [rewrite app_nil_r; replace (a * 10 ^ Z.of_nat 0 + 0) with a by lia; exact W|].
  rewrite app_assoc. replace (a * 10 ^ Z.of_nat (S k) + (10 * b + Z.of_nat i)) with (10 * (a * 10 ^ Z.of_nat k + b) + Z.of_nat i).
  - cbn [Nat.add]. constructor; assumption.
  - replace (Z.of_nat (S k)) with (Z.of_nat k + 1) by lia. rewrite Z.pow_add_r by lia. lia.
Qed.

(** ** The number that is written *)
Definition packed (y m d s : Z) : Z := ((((y * 100 + m) * 100 + d) * 100 + s / 3600) * 100 + s mod 3600 / 60) * 100 + s mod 60.
Lemma clock_parts s : 0 <= s < 86400 -> 0 <= s / 3600 < 24 /\ 0 <= s mod 3600 / 60 < 60 /\ 0 <= s mod 60 < 60 /\ s = s / 3600 * 3600 + s mod 3600 / 60 * 60 + s mod 60.
Proof.
  intros S0. pose proof (Z.div_mod s 3600). pose proof (Z.mod_pos_bound s 3600). pose proof (Z.div_pos s 3600). assert (s / 3600 < 24) by (apply Z.div_lt_upper_bound; lia).
  set (q := s mod 3600) in *. assert (E6 : s mod 60 = q mod 60). { unfold q. rewrite (Z.div_mod s 3600) at 1 by lia. replace (3600 * (s / 3600) + s mod 3600) with (s mod 3600 + (60 * (s / 3600)) * 60) by lia. apply Z.mod_add. lia. }
  pose proof (Z.div_mod q 60). pose proof (Z.mod_pos_bound q 60). pose proof (Z.div_pos q 60). assert (q / 60 < 60) by (apply Z.div_lt_upper_bound; lia). rewrite E6. lia.
Qed.
Lemma stamp14_writes z : four_digits z -> exists y m d, date_at (z / 86400 + unix_days) = Date y m d /\ 1 <= m <= 12 /\ 1 <= d <= days_in m y
  /\ writes 14 (packed y m d (z mod 86400)) (stamp14 z).
Proof.
  intros R. unfold four_digits in R. unfold stamp14. set (n := z / 86400). assert (Hn : days_since 0 <= n + unix_days < days_since 10000).
  { change (days_since 0) with (-366). change (days_since 10000) with 3652059. unfold unix_days, n. pose proof (Z.div_mod z 86400). pose proof (Z.mod_pos_bound z 86400). lia. }
  destruct (abs_date (n + unix_days)) as [[y m] d] eqn:E.
  assert (E' : date_at (n + unix_days) = Date y m d) by (unfold date_at; rewrite E; reflexivity). pose proof (year_of _ _ _ _ E' Hn) as Y. destruct (date_at_days (n + unix_days)) as (V & _). rewrite E' in V. destruct V as (M & Da). cbn [dt_year dt_month dt_day] in M, Da.
  pose proof (days_in_pos m y M) as L. exists y, m, d. do 3 (split; [assumption|]). set (s := z mod 86400). assert (S0 : 0 <= s < 86400) by (apply Z.mod_pos_bound; lia). clearbody s n.
  destruct (clock_parts s S0) as (Ch & Cm & Cs & _). unfold packed. rewrite !app_assoc.
  repeat (apply (writes_app _ _ _ 2); [|apply StampText.pad2_writes; lia]). apply pad4_writes. lia.
Qed.
Lemma packed_mono y m d s y' m' d' s' : 1 <= m <= 12 -> 1 <= d <= days_in m y -> 1 <= m' <= 12 -> 1 <= d' <= days_in m' y' -> 0 <= s < 86400 -> 0 <= s' < 86400 ->
  date_days y m d * 86400 + s < date_days y' m' d' * 86400 + s' -> packed y m d s < packed y' m' d' s'.
Proof.
  intros M D M' D' S0 S1 L. pose proof (year_day y m d M D) as Y. pose proof (year_day y' m' d' M' D') as Y'. pose proof (days_in_pos m y M). pose proof (days_in_pos m' y' M'). assert (d <= 31 /\ d' <= 31) as (? & ?) by lia.
  destruct (clock_parts s S0) as (? & ? & ? & Es), (clock_parts s' S1) as (? & ? & ? & Es'). unfold packed.
  set (h := s / 3600) in *. set (mi := s mod 3600 / 60) in *. set (k := s mod 60) in *. set (h' := s' / 3600) in *. set (mi' := s' mod 3600 / 60) in *. set (k' := s' mod 60) in *. clearbody h mi k h' mi' k'.
  destruct (Z.lt_trichotomy y y') as [A|[A|A]]; [lia| |pose proof (days_since_mono (y' + 1) y ltac:(lia)); lia]. subst y'.
  rewrite !days_before_form in L. rewrite <- !length_days_in in D, D'.
  destruct (Z.lt_trichotomy m m') as [A|[A|A]]; [lia| |pose proof (before_mono (is_leap y) m' m ltac:(lia) A ltac:(lia)); lia]. subst m'.
  destruct (Z.lt_trichotomy d d') as [A|[A|A]]; [lia| |lia]. subst d'.
  destruct (Z.lt_trichotomy h h') as [A|[A|A]]; [lia| |lia]. subst h'. destruct (Z.lt_trichotomy mi mi') as [A|[A|A]]; lia.
Qed.
Lemma stamp14_less t t' r r' : four_digits t -> four_digits t' -> t < t' -> bltb (stamp14 t ++ r) (stamp14 t' ++ r') = true.
Proof.
  intros F F' L. destruct (stamp14_writes t F) as (y & m & d & E & M & D & W), (stamp14_writes t' F') as (y' & m' & d' & E' & M' & D' & W').
  apply bltb_cut; [rewrite (writes_length _ _ _ W), (writes_length _ _ _ W'); reflexivity|]. eapply writes_less; [exact W|exact W'|].
  destruct (date_at_days (t / 86400 + unix_days)) as (_ & X), (date_at_days (t' / 86400 + unix_days)) as (_ & X'). rewrite E in X. rewrite E' in X'. unfold days in X, X'. cbn [dt_year dt_month dt_day] in X, X'.
  apply packed_mono; try assumption; try (apply Z.mod_pos_bound; lia). rewrite X, X'. pose proof (Z.div_mod t 86400). pose proof (Z.div_mod t' 86400). lia.
Qed.

(** ** Files *)
Lemma names_begin d flt prefix src dest drop files ws f : results d flt prefix src dest drop = Ok (files, ws) -> In f files -> exists r, fl_name f = prefix ++ r.
Proof.
  intros H I. destruct d.
  1: { cbn [results] in H. invert_binds H. injection H as <- _. destruct (none _); [destruct I|]. destruct I as [<-|[]]. eexists. reflexivity. }
  all: apply numbered in H; [|discriminate]; destruct H as (l & -> & _); unfold number in I; revert I; generalize 1%nat; induction l as [|p l IH]; intros n I; [destruct I|];
    cbn [number_from] in I; destruct I as [<-|I]; [cbn [fl_name]; rewrite <- app_assoc; eauto|]; apply in_app_or in I; destruct I as [I|I]; [|eapply IH, I];
    destruct (ps_undo p); [|destruct I]; destruct I as [<-|[]]; cbn [fl_name]; rewrite <- app_assoc; eauto.
Qed.
Lemma written_begin flt r f : In f (written flt r) -> exists x, fl_name f = prefix_of (rn_given r) (rn_now r) ++ x.
Proof.
  unfold written. intros I. destruct (results _ _ _ _ _ _) as [[files ws]| |] eqn:E; try (destruct I; fail). destruct (none ws || rn_accept r)%bool; [|destruct I]. eapply names_begin; eassumption.
Qed.
Lemma written_order flt r : fits flt r -> alphabetical (map fl_name (written flt r)).
Proof.
  unfold fits, written. destruct (results _ _ _ _ _ _) as [[files ws]| |] eqn:E; try (intros _; constructor). destruct (none ws || rn_accept r)%bool; [|intros _; constructor]. intros L. eapply names_in_order; eassumption.
Qed.
Lemma earlier_first flt r r' f f' : by_time r -> by_time r' -> writable r -> writable r' -> rn_now r < rn_now r' -> In f (written flt r) -> In f' (written flt r') ->
  bltb (fl_name f) (fl_name f') = true.
Proof.
  intros B B' W W' L I I'. destruct (written_begin _ _ _ I) as (x & ->), (written_begin _ _ _ I') as (x' & ->). unfold by_time in *. rewrite B, B'. cbn [prefix_of]. apply stamp14_less; assumption.
Qed.
Lemma alphabetical_app a b : alphabetical a -> alphabetical b -> (forall x y, In x a -> In y b -> bltb x y = true) -> alphabetical (a ++ b).
Proof.
  intros A B H. induction A as [|x a F A IH]; [exact B|]. cbn [app]. constructor; [apply Forall_app; split; [exact F|]|apply IH; intros u v U V; apply H; [right|]; assumption].
  apply Forall_forall. intros y Y. apply H; [left; reflexivity|exact Y].
Qed.
Lemma everything_order flt l : Forall by_time l -> Forall writable l -> Forall (fits flt) l -> one_by_one l -> alphabetical (map fst (everything flt l)).
Proof.
  intros B W F O. induction O as [|r l E O IH]; [constructor|]. inversion B as [|? ? B0 B1]; subst. inversion W as [|? ? W0 W1]; subst. inversion F as [|? ? F0 F1]; subst.
  unfold everything in *. cbn [flat_map]. rewrite map_app, map_map. cbn [fst]. apply alphabetical_app; [apply written_order, F0|auto|].
  intros x y X Y. apply in_map_iff in X, Y. destruct X as (f & <- & X), Y as ((n & c) & <- & Y). cbn [fst]. apply in_flat_map in Y. destruct Y as (r' & R & Y). apply in_map_iff in Y. destruct Y as (f' & Y & I'). injection Y as <- _.
  rewrite Forall_forall in *. eapply (earlier_first flt r r'); auto.
Qed.
Lemma put_new dir n l : ~ In n (map fst dir) -> put dir n l = dir ++ [(n, l)].
Proof.
  induction dir as [|(m, l0) dir IH]; intros N; [reflexivity|]. cbn [put app map fst] in *. destruct (beqb m n) eqn:E; [apply beqb_eq in E; exfalso; apply N; left; exact E|]. rewrite IH; [reflexivity|]. intros I. apply N. right. exact I.
Qed.
Lemma puts_new files dir : NoDup (map fst dir ++ map fl_name files) ->
  fold_left (fun dir f => put dir (fl_name f) (fl_stmts f)) files dir = dir ++ map (fun f => (fl_name f, fl_stmts f)) files.
Proof.
  revert dir. induction files as [|f files IH]; intros dir N; [symmetry; apply app_nil_r|]. cbn [fold_left map] in *. rewrite put_new.
  - rewrite IH; [rewrite <- app_assoc; reflexivity|]. rewrite map_app, <- app_assoc. exact N.
  - apply NoDup_remove_2 in N. intros I. apply N, in_or_app. auto.
Qed.
Lemma alphabetical_NoDup l : alphabetical l -> NoDup l.
Proof. intros A. induction A as [|x l F A IH]; constructor; [|exact IH]. intros I. rewrite Forall_forall in F. specialize (F x I). rewrite bltb_irrefl in F. discriminate F. Qed.
Lemma NoDup_front {A} (a b : list A) : NoDup (a ++ b) -> NoDup a.
Proof. induction a as [|x a IH]; intros N; [constructor|]. inversion N; subst. constructor; [intros I; apply H1, in_or_app; auto|auto]. Qed.
Lemma generate_all flt l : forall dir, NoDup (map fst dir ++ map fst (everything flt l)) -> fold_left (generate flt) l dir = dir ++ everything flt l.
Proof.
  induction l as [|r l IH]; intros dir N; [symmetry; apply app_nil_r|]. cbn [fold_left]. unfold everything in *. cbn [flat_map] in *. rewrite map_app, map_map in N. cbn [fst] in N. rewrite app_assoc in N.
  unfold generate at 2. rewrite puts_new by (eapply NoDup_front, N). rewrite IH; [rewrite <- app_assoc; reflexivity|]. rewrite map_app, map_map. exact N.
Qed.

(** ** What migrate runs *)
Lemma writes_figures k n s : writes k n s -> forall c, In c s -> In c figures.
Proof. induction 1 as [|k n s i c _ IH E]; intros x I; [destruct I|]. apply in_app_or in I. destruct I as [I|[<-|[]]]; [apply IH, I|eapply nth_error_In, E]. Qed.
Lemma stamp14_plain z : four_digits z -> SpecDiff.plain (stamp14 z) /\ List.length (stamp14 z) = 14%nat.
Proof.
  intros F. destruct (stamp14_writes z F) as (y & m & d & _ & _ & _ & W). split; [|eapply writes_length, W].
  split; intros I; apply (writes_figures _ _ _ W) in I; cbn in I; repeat (destruct I as [I|I]; [discriminate I|]); exact I.
Qed.
Lemma stamp14_once z x : four_digits z -> repeatable (stamp14 z ++ x) = false.
Proof.
  intros F. destruct (stamp14_writes z F) as (y & m & d & _ & _ & _ & W). destruct (writes_first _ _ _ W) as (a & v & r & E & D). rewrite E. unfold repeatable.
  destruct (has_prefix _ _) eqn:P; [|reflexivity]. apply has_prefix_iff in P. destruct P as (t & P). injection P as -> _. discriminate D.
Qed.
Lemma written_once flt r n : by_time r -> writable r -> In n (map fl_name (written flt r)) -> repeatable n = false.
Proof.
  intros Bt Wr I. apply in_map_iff in I. destruct I as (f & <- & I). destruct (written_begin _ _ _ I) as (x & ->). unfold by_time in Bt. rewrite Bt. apply stamp14_once, Wr.
Qed.
Lemma once_filter l : (forall n, In n l -> repeatable n = false) -> sort_and_filter l = filter (fun n => negb (skipped n)) l.
Proof. intros H. unfold sort_and_filter. rewrite filter_plain_loop by exact H. apply app_nil_r. Qed.
Lemma written_run flt r : by_time r -> writable r -> usual r -> filter (fun n => negb (skipped n)) (map fl_name (written flt r)) = map fl_name (filter (fun f => negb (fl_undo f)) (written flt r)).
Proof.
  intros Bt Wr U. rewrite <- once_filter by (intros n; apply written_once; assumption). unfold written. destruct (results _ _ _ _ _ _) as [[files ws]| |] eqn:E; try reflexivity.
  destruct (none ws || rn_accept r)%bool; [|reflexivity]. unfold by_time in Bt. rewrite Bt in E. cbn [prefix_of] in E. destruct (stamp14_plain _ Wr) as (P & L).
  eapply generated_files_run; [exact U|exact P| | | |exact E]; intros X; rewrite X in L; discriminate L.
Qed.

(** ** C123: every migration is kept, and they run in the order in which they were generated *)
(** Missing from the full claim: calls in the same second. *)
Theorem C123_partial : forall flt l, Forall by_time l -> Forall writable l -> Forall (fits flt) l -> one_by_one l ->
  fold_left (generate flt) l [] = everything flt l
  /\ sort_strings (map fst (fold_left (generate flt) l [])) = map fst (everything flt l).
Proof.
  intros flt l B W F O. pose proof (everything_order flt l B W F O) as A. assert (E : fold_left (generate flt) l [] = everything flt l) by (apply generate_all; apply alphabetical_NoDup, A).
  split; [exact E|]. rewrite E. apply sort_alphabetical, A.
Qed.
Print Assumptions C123_partial.
(** What migrate does with the directory: the migrations in the order in which they were generated. *)
Theorem C123_migrate : forall flt l, Forall by_time l -> Forall writable l -> Forall (fits flt) l -> one_by_one l -> Forall usual l ->
  sort_and_filter (sort_strings (map fst (fold_left (generate flt) l []))) = migrations flt l.
Proof.
  intros flt l Bt Wr F O U. rewrite (proj2 (C123_partial flt l Bt Wr F O)). clear F O. rewrite once_filter.
  - induction l as [|r l IH]; [reflexivity|]. inversion Bt as [|? ? B0 B1]; subst. inversion Wr as [|? ? W0 W1]; subst. inversion U as [|? ? U0 U1]; subst.
    unfold everything, migrations in *. cbn [flat_map]. rewrite map_app, filter_app, IH by assumption. f_equal. rewrite map_map. cbn [fst]. apply written_run; assumption.
  - intros n I. rewrite Forall_forall in Bt, Wr. apply in_map_iff in I. destruct I as (x & <- & I). apply in_flat_map in I. destruct I as (r & R & I). apply in_map_iff in I. destruct I as (f & <- & I). cbn [fst].
    apply (written_once flt r); [apply Bt, R|apply Wr, R|apply in_map, I].
Qed.
Print Assumptions C123_migrate.
(** Two calls, with any number of files. *)
Theorem C123_earlier_first : forall flt r r' f f', by_time r -> by_time r' -> writable r -> writable r' -> rn_now r < rn_now r' ->
  In f (written flt r) -> In f' (written flt r') -> bltb (fl_name f) (fl_name f') = true.
Proof. exact earlier_first. Qed.
Print Assumptions C123_earlier_first.
(** The number in the name is the time: two calls have the same names at most in the same second. *)
Theorem C123_same_second : forall t t' r r', four_digits t -> four_digits t' -> stamp14 t ++ r = stamp14 t' ++ r' -> t = t'.
Proof.
  intros t t' r r' F F' E. destruct (Z.lt_trichotomy t t') as [L|[L|L]]; [|exact L|].
  - pose proof (stamp14_less t t' r r' F F' L) as X. rewrite E, bltb_irrefl in X. discriminate X.
  - pose proof (stamp14_less t' t r' r F' F L) as X. rewrite E, bltb_irrefl in X. discriminate X.
Qed.
Print Assumptions C123_same_second.
Definition some_run (d : dialect) (now : Z) (back : bool) : run :=
  Run [] now d (if back then new_db d else old_db d) (if back then old_db d else new_db d) true true.
(** Two calls in the same second: on SQLite the first migration is lost. *)
Theorem C123_refuted : exists flt r r' f, by_time r /\ by_time r' /\ writable r /\ writable r' /\ fits flt r /\ fits flt r' /\ rn_now r = rn_now r'
  /\ In f (written flt r) /\ ~ In (fl_name f, fl_stmts f) (fold_left (generate flt) [r; r'] []).
Proof.
  set (r := some_run SQLite 1700000000 false). set (r' := some_run SQLite 1700000000 true). set (f := hd (File [] false []) (written no_float r)).
  exists no_float, r, r', f. split; [reflexivity|]. split; [reflexivity|]. split; [vm_compute; split; [discriminate|reflexivity]|]. split; [vm_compute; split; [discriminate|reflexivity]|].
  split; [unfold fits; vm_compute; lia|]. split; [unfold fits; vm_compute; lia|]. split; [reflexivity|]. split; [left; vm_compute; reflexivity|].
  intros I. assert (T : List.length (fold_left (generate no_float) [r; r'] []) = 1%nat) by (vm_compute; reflexivity).
  assert (L : forall x, In x (fold_left (generate no_float) [r; r'] []) -> List.length (snd x) <> List.length (fl_stmts f)).
  { intros x X. assert (Q : forallb (fun x => negb (Nat.eqb (List.length (snd x)) (List.length (fl_stmts f)))) (fold_left (generate no_float) [r; r'] []) = true) by (vm_compute; reflexivity).
    rewrite forallb_forall in Q. specialize (Q x X). apply negb_true_iff, Nat.eqb_neq in Q. exact Q. }
  exact (L _ I eq_refl).
Qed.
Print Assumptions C123_refuted.
(** On the other products the files of the two calls are mixed. *)
Theorem C123_refuted_mixed : exists flt r r', by_time r /\ by_time r' /\ writable r /\ writable r' /\ fits flt r /\ fits flt r' /\ rn_now r = rn_now r'
  /\ NoDup (map fst (everything flt [r; r'])) /\ sort_strings (map fst (everything flt [r; r'])) <> map fst (everything flt [r; r']).
Proof.
  set (r := some_run Postgres 1700000000 false). set (r' := some_run Postgres 1700000000 true). exists no_float, r, r'.
  split; [reflexivity|]. split; [reflexivity|]. split; [vm_compute; split; [discriminate|reflexivity]|]. split; [vm_compute; split; [discriminate|reflexivity]|].
  split; [unfold fits; vm_compute; lia|]. split; [unfold fits; vm_compute; lia|]. split; [reflexivity|]. split; [apply nodupb_ok; vm_compute; reflexivity|].
  set (l := map fst (everything no_float [r; r'])). intro H.
  assert (T : beqb (nth 1 (sort_strings l) []) (nth 1 l []) = false) by (vm_compute; reflexivity).
  rewrite H in T. assert (T' : beqb (nth 1 l []) (nth 1 l []) = true) by (apply beqb_eq; reflexivity).
  pose proof (eq_trans (eq_sym T) T') as D. discriminate D.
Qed.
Print Assumptions C123_refuted_mixed.
Definition three_runs : list run := [some_run Postgres 951825599 false; some_run SQLite 951825600 true; some_run MySQL 1700000000 false].
Example C123_example : Forall by_time three_runs /\ Forall writable three_runs /\ Forall (fits no_float) three_runs /\ one_by_one three_runs
  /\ Forall (fun r => written no_float r <> []) three_runs.
Proof.
  split; [repeat constructor|]. split; [repeat constructor; discriminate|]. split; [unfold three_runs; repeat (constructor; [unfold fits; vm_compute; lia|]); constructor|].
  split; [repeat constructor|]. unfold three_runs; repeat (constructor; [vm_compute; discriminate|]); constructor.
Qed.
Example C123_example_migrate : Forall usual three_runs /\ List.length (migrations no_float three_runs) <> List.length (everything no_float three_runs).
Proof.
  split; [|vm_compute; discriminate]. assert (H : forall d n, usual (some_run d n false) /\ usual (some_run d n true)).
  { intros d n. unfold usual, some_run. cbn [rn_src rn_dest rn_dialect].
    pose proof (proj1 (old_unique d)). pose proof (proj1 (new_unique d)). pose proof (old_readable d). pose proof (new_readable d). pose proof (old_plain d). pose proof (new_plain d).
    assert (SpecDiff.plain (ct_current (old_db d)) /\ SpecDiff.plain (ct_current (new_db d))) as (? & ?) by (split; apply plain_ok; reflexivity). auto 20. }
  unfold three_runs. repeat (constructor; [apply H|]). constructor.
Qed.
(** The last second of the 28th and the first of the 29th of February 2000. *)
Example C123_stamps : stamp14 951782399 = B"20000228235959" /\ stamp14 951782400 = B"20000229000000".
Proof. split; reflexivity. Qed.
