(** C115: the options of a command are those that the user wrote.
    More about C95 (global flags) and C96 (exit status), now with the options that the commands get; PropMain.v has them for
    the flags as they are written. *)
From Coq Require Import Lia Permutation.
From Verif Require Import GoStr GoStrFacts ModelHistory ModelFlags SpecFlags FlagFacts.
From Verif Require TablesFacts ModelMain.

Fixpoint distinct (l : list bytes) : bool := match l with [] => true | x :: l' => negb (bmem x l') && distinct l' end.
Lemma distinct_NoDup l : distinct l = true -> NoDup l.
Proof.
  induction l as [|x l IH]; [constructor|]. cbn [distinct]. intros H. apply andb_true_iff in H. destruct H as (Hx & Hl). constructor; [|apply IH, Hl]. intros I. rewrite (proj2 (bmem_In x l) I) in Hx. discriminate Hx.
Qed.
Lemma flags_distinct c : NoDup (map fst (command_flags c)).
Proof. apply distinct_NoDup. destruct c; vm_compute; reflexivity. Qed.
Lemma global_distinct : NoDup (map fst global_flags).
Proof. apply distinct_NoDup. vm_compute. reflexivity. Qed.

(** ** C115 *)
Lemma split_comma_list s l : split_list s = l <-> comma_list s l.
Proof.
  unfold split_list, comma_list. destruct s as [|a s]; [split; [auto|intros [(_ & H)|(H & _)]; [auto|contradiction]]|]. split.
  - intros <-. right. split; [discriminate|]. split; [apply split_byte_nonempty|split].
    + apply (join_split_byte "," (a :: s)).
    + apply TablesFacts.split_parts.
  - intros [(H & _)|(_ & N & J & H)]; [discriminate H|]. rewrite <- J. apply (TablesFacts.split_join ","%char l N H).
Qed.
Lemma meant_names io defs ss vs : meant io defs ss vs -> map fst vs = map fst defs.
Proof. intros H. induction H as [|d x defs vs (E & _) H IH]; [reflexivity|]. cbn [map]. rewrite E, IH. reflexivity. Qed.
Lemma worth_unique io d vals y z : worth io d vals y -> worth io d vals z -> y = z.
Proof.
  destruct (exists_last_or_nil vals) as [-> |(u & w & ->)].
  - rewrite !worth_nothing. congruence.
  - rewrite !worth_last. destruct d; congruence.
Qed.
Lemma meant_unique io defs ss ss' vs vs' : (forall n, values_for n ss = values_for n ss') -> meant io defs ss vs -> meant io defs ss' vs' -> vs = vs'.
Proof.
  intros E H. revert vs'. induction H as [|[k d] [k1 x] defs vs (E1 & W1) H IH]; intros vs' H'; inversion H' as [|? [k2 y] ? vs2 (E2 & W2) H2]; subst; [reflexivity|]. cbn [fst snd] in *. subst. rewrite (IH _ H2). rewrite E in W1. rewrite (worth_unique _ _ _ _ _ W1 W2). reflexivity.
Qed.
Lemma text_worth io s vals y : worth io (FStr s) vals y -> exists t, y = FStr t.
Proof.
  destruct (exists_last_or_nil vals) as [-> |(u & w & ->)]; [rewrite worth_nothing; eauto|]. rewrite worth_last. cbn [set_value]. intros H. injection H as <-. eauto.
Qed.
Lemma meant_in io defs ss vs n d : meant io defs ss vs -> In (n, d) defs -> exists x, In (n, x) vs /\ worth io d (values_for n ss) x.
Proof.
  intros H. induction H as [|[k e] [k' x] defs vs (E & W) H IH]; [intros []|]. cbn [fst snd] in *. subst k'. intros [I|I].
  - injection I as -> ->. exists x. split; [left; reflexivity|exact W].
  - destruct (IH I) as (y & J & V). exists y. split; [right; exact J|exact V].
Qed.
Lemma text_has vs n s : NoDup (map fst vs) -> has_text vs n s -> text_flag vs n = s.
Proof. intros N H. unfold text_flag. rewrite (proj2 (find_in vs n (FStr s) N) H). reflexivity. Qed.
Lemma has_flag io defs ss vs n d : NoDup (map fst defs) -> meant io defs ss vs -> In (n, FStr d) defs -> has_text vs n (text_flag vs n).
Proof.
  intros N M I. destruct (meant_in _ _ _ _ _ _ M I) as (x & J & V). destruct (text_worth _ _ _ _ V) as (t & ->).
  rewrite (text_has vs n t); [exact J| |exact J]. rewrite (meant_names _ _ _ _ M). exact N.
Qed.
Definition is_text (defs : list (bytes * fval)) (n : bytes) : bool := match find_flag defs n with Some (FStr _) => true | _ => false end.
Lemma text_in defs n : is_text defs n = true -> exists d, In (n, FStr d) defs.
Proof.
  unfold is_text. induction defs as [|[k e] defs IH]; [discriminate|]. cbn [find_flag]. destruct (beqb k n) eqn:E.
  - apply beqb_eq in E. subst k. destruct e as [s| | |]; try discriminate. exists s. left. reflexivity.
  - intros H. destruct (IH H) as (d & I). exists d. right. exact I.
Qed.
Lemma list_texts c n : In n (list_flags c) -> exists d, In (n, FStr d) (command_flags c).
Proof. intros I. apply text_in. assert (H : forallb (is_text (command_flags c)) (list_flags c) = true) by (destruct c; vm_compute; reflexivity). rewrite forallb_forall in H. apply H, I. Qed.
Lemma time_texts c n : In n (time_flags c) -> exists d, In (n, FStr d) (command_flags c).
Proof. intros I. apply text_in. assert (H : forallb (is_text (command_flags c)) (time_flags c) = true) by (destruct c; vm_compute; reflexivity). rewrite forallb_forall in H. apply H, I. Qed.
Lemma db_text c : exists d, In (B"db", FStr d) (command_flags c).
Proof. apply text_in. destruct c; vm_compute; reflexivity. Qed.
Lemma dir_text c : In (B"dir") (map fst (command_flags c)) -> exists d, In (B"dir", FStr d) (command_flags c).
Proof.
  intros I. apply text_in. apply bmem_In in I. destruct c; vm_compute in I; try discriminate I; vm_compute; reflexivity.
Qed.

Lemma durations_meaning f vs l ts : durations f vs l = Some ts <-> map fst ts = l /\ Forall (fun p => if blank_text (text_flag vs (fst p)) then snd p = 0%Z else f (text_flag vs (fst p)) = Some (snd p)) ts.
Proof.
  revert ts. induction l as [|n l IH]; intros ts; cbn [durations].
  - split; [intros H; injection H as <-; split; [reflexivity|constructor]|]. intros (E & _). destruct ts; [reflexivity|discriminate E].
  - destruct (match text_flag vs n with [] => Some 0%Z | s => f s end) as [z|] eqn:E.
    + destruct (durations f vs l) as [r|] eqn:R.
      * split.
        -- intros H. injection H as <-. destruct (proj1 (IH r) eq_refl) as (M & F). split; [cbn [map fst]; rewrite M; reflexivity|]. constructor; [|exact F]. cbn [fst snd]. destruct (text_flag vs n); cbn [blank_text]; [injection E as <-; reflexivity|exact E].
        -- intros (M & F). destruct ts as [|[k y] ts]; [discriminate M|]. cbn [map fst] in M. injection M as -> M. inversion F as [|? ? F1 F2]; subst. assert (X : Some r = Some ts) by (apply IH; auto). injection X as ->. cbn [fst snd] in F1. do 3 f_equal. destruct (text_flag vs n); cbn [blank_text] in F1; congruence.
      * split; [discriminate|]. intros (M & F). exfalso. destruct ts as [|[k y] ts]; [discriminate M|]. cbn [map fst] in M. injection M as -> M. inversion F as [|? ? F1 F2]; subst. assert (X : None = Some ts) by (apply IH; auto). discriminate X.
    + split; [discriminate|]. intros (M & F). exfalso. destruct ts as [|[k y] ts]; [discriminate M|]. cbn [map fst] in M. injection M as -> M. inversion F as [|? ? F1 F2]; subst. cbn [fst snd] in F1. destruct (text_flag vs n); cbn [blank_text] in F1; congruence.
Qed.

(** What the code requires. *)
Definition enforced (c : command) : list bytes := match c with Touch => [B"db"] | _ => required_options c end.
Lemma enforced_flags c vs : (forall n, In n (enforced c) -> text_flag vs n <> []) <-> needs_db c && blank_text (text_flag vs (B"db")) = false /\ needs_dir c && blank_text (text_flag vs (B"dir")) = false.
Proof.
  assert (X : forall s : bytes, s <> [] <-> blank_text s = false) by (intros [|]; cbn [blank_text]; split; congruence).
  split.
  - intros H. split; [destruct (needs_db c) eqn:E|destruct (needs_dir c) eqn:E]; try reflexivity; cbn [andb]; apply X, H; destruct c; try discriminate E; vm_compute; auto.
  - intros (H1 & H2) n I. apply X. destruct c; cbn in H1, H2, I; repeat (destruct I as [<-|I]; [assumption|]); destruct I.
Qed.
Lemma enforced_texts c n : In n (enforced c) -> exists d, In (n, FStr d) (command_flags c).
Proof. intros I. apply text_in. assert (H : forallb (is_text (command_flags c)) (enforced c) = true) by (destruct c; vm_compute; reflexivity). rewrite forallb_forall in H. apply H, I. Qed.

Lemma Forall2_map {A B} (f : A -> B) l r : Forall2 (fun a b => b = f a) l r <-> r = map f l.
Proof.
  split; [intros H; induction H as [|a b l r -> H IH]; [reflexivity|rewrite IH; reflexivity]|]. intros ->. induction l as [|a l IH]; constructor; [reflexivity|exact IH].
Qed.
Lemma files_exact c dir files fs : files_meant c dir files fs <-> fs = files_of c dir files.
Proof.
  unfold files_meant. rewrite !(Forall2_map (fun f => normalize_filename f dir)). unfold file_commands.
  destruct c; cbn [files_of]; split; try (intros (H1 & H2 & H3)); try (apply H1; cbn; tauto); try (apply H2; reflexivity); try (apply H3; [cbn; intuition discriminate|discriminate]);
    intros H; (split; [|split]); try exact (fun _ => H); try (intros I; exfalso; cbn in I; intuition discriminate); try discriminate; try exact (fun _ _ => H); try (intros I J; exfalso; first [apply J; reflexivity|apply I; cbn; tauto]).
Qed.

Definition C115_claim : Prop := forall W c args o, command_options W c args = Done o <-> exists ss files, line (is_switch (command_flags c)) ss files args /\ options_for (required_options c) W c ss files o.
Theorem C115_partial W c args o : command_options W c args = Done o <-> exists ss files, line (is_switch (command_flags c)) ss files args /\ options_for (enforced c) W c ss files o.
Proof.
  pose proof (flags_distinct c) as N. unfold command_options. split.
  - intros H. destruct (parse_flags (int_of W) (command_flags c) args) as [[vs rest]| |] eqn:P; try discriminate H.
    apply (parse_exact _ _ _ _ _ N) in P. destruct P as (ss & L & K & M).
    destruct (needs_db c && _) eqn:D1; [discriminate H|]. destruct (needs_dir c && _) eqn:D2; [discriminate H|]. destruct (durations _ _ _) as [ts|] eqn:T; [|discriminate H]. injection H as <-.
    exists ss, rest. split; [exact L|]. unfold options_for. cbn [o_values o_lists o_times o_files].
    split; [exact K|]. split; [exact M|]. split; [rewrite map_map, map_id; reflexivity|]. split; [|apply durations_meaning in T; destruct T as (T1 & T2); split; [exact T1|split; [|split; [|split]]]].
    + intros n l I. apply in_map_iff in I. destruct I as (n' & E & I). injection E as -> <-. destruct (list_texts c n I) as (d & J). exists (text_flag vs n). split; [exact (has_flag _ _ _ _ _ _ N M J)|apply split_comma_list; reflexivity].
    + intros n z I. rewrite Forall_forall in T2. specialize (T2 _ I). cbn [fst snd] in T2. assert (J : In n (time_flags c)) by (rewrite <- T1; apply in_map_iff; exists (n, z); auto). destruct (time_texts c n J) as (d & J'). exists (text_flag vs n). split; [exact (has_flag _ _ _ _ _ _ N M J')|exact T2].
    + intros n I. destruct (enforced_texts c n I) as (d & J). exists (text_flag vs n). split; [exact (has_flag _ _ _ _ _ _ N M J)|]. revert n I d J. intros n I _ _. revert n I. apply enforced_flags. split; [|exact D2]. destruct (needs_db c); [|reflexivity]. cbn [andb] in *. apply orb_false_iff in D1. apply D1.
    + intros G. destruct (db_text c) as (d & J). exists (text_flag vs (B"db")). split; [exact (has_flag _ _ _ _ _ _ N M J)|]. assert (E : needs_db c = true) by (destruct c; [reflexivity..|contradiction| | | |]; reflexivity). rewrite E in D1. cbn [andb] in D1. apply orb_false_iff in D1. destruct D1 as (_ & D1). apply negb_false_iff in D1. exact D1.
    + exists (text_flag vs (B"dir")). split; [|apply files_exact; reflexivity]. intros I. destruct (dir_text c I) as (d & J). exact (has_flag _ _ _ _ _ _ N M J).
  - intros (ss & files & L & K & M & L1 & L2 & T1 & T2 & R & D & dir & Hd & Hf). destruct o as [vs ls ts fs]. cbn [o_values o_lists o_times o_files] in *.
    rewrite (proj2 (parse_exact (int_of W) (command_flags c) args vs files N) (ex_intro _ ss (conj L (conj K M)))).
    assert (N' : NoDup (map fst vs)) by (rewrite (meant_names _ _ _ _ M); exact N).
    assert (R' : forall n, In n (enforced c) -> text_flag vs n <> []) by (intros n I; destruct (R n I) as (s & Hs & Hn); rewrite (text_has vs n s N' Hs); exact Hn).
    apply enforced_flags in R'. destruct R' as (R1 & R2).
    assert (E : needs_db c && (blank_text (text_flag vs (B"db")) || negb (known_db W (text_flag vs (B"db")))) = false).
    { destruct (needs_db c) eqn:E; [|reflexivity]. cbn [andb] in *. rewrite R1. cbn [orb]. apply negb_false_iff. destruct D as (s & Hs & Hk); [intros ->; discriminate E|]. rewrite (text_has vs _ s N' Hs). exact Hk. }
    rewrite E, R2. assert (T : durations (duration_of W) vs (time_flags c) = Some ts).
    { apply durations_meaning. split; [exact T1|]. apply Forall_forall. intros [n z] I. cbn [fst snd]. destruct (T2 n z I) as (s & Hs & Hz). rewrite (text_has vs n s N' Hs). exact Hz. }
    rewrite T. f_equal. f_equal.
    + rewrite <- L1, map_map. rewrite <- (map_id ls) at 2. apply map_ext_in. intros [n l] I. cbn [fst]. destruct (L2 n l I) as (s & Hs & Hl). rewrite (text_has vs n s N' Hs). f_equal. apply split_comma_list, Hl.
    + apply files_exact in Hf. rewrite Hf. destruct c; try reflexivity; (rewrite (text_has vs (B"dir") dir N'); [reflexivity|apply Hd; vm_compute; auto]).
Qed.
(** The help of touch calls -dir required, but it is not: the migrations of the working directory are taken. *)
Definition any_outside : outside := Outside (fun _ => None) (fun _ => None) (fun _ => true).
Theorem C115_refuted : ~ C115_claim.
Proof.
  intros H. set (args := [B"-db"; B"app.db"]). destruct (command_options any_outside Touch args) as [o| |] eqn:E; [|discriminate E..]. pose proof (proj1 (H _ _ _ _) E) as (ss & files & L & K & M & _ & _ & _ & _ & R & _).
  destruct (R (B"dir")) as (s & I & N); [vm_compute; auto|]. vm_compute in E. injection E as <-. vm_compute in I. repeat (destruct I as [I|I]; [try discriminate I|]); [|destruct I]. injection I as <-. contradiction.
Qed.
Lemma values_mid ss1 ss2 n : values_for n (ss1 ++ ss2) = values_for n ss1 ++ values_for n ss2.
Proof. unfold values_for. rewrite filter_app, map_app. reflexivity. Qed.
Lemma values_in ss n : ~ In n (map fst ss) -> values_for n ss = [].
Proof. induction ss as [|[k v] ss IH]; [reflexivity|]. cbn [map fst In]. intros H. rewrite values_other by (intros E; apply H; left; congruence). apply IH. tauto. Qed.
Lemma values_permuted ss ss' n : Permutation ss ss' -> NoDup (map fst ss) -> values_for n ss = values_for n ss'.
Proof.
  intros P. induction P as [|[k v] ss ss' P IH|[k v] [k' v'] ss|ss ss' ss'' P1 IH1 P2 IH2]; intros N.
  - reflexivity.
  - cbn [map fst] in N. inversion N as [|? ? _ N2]; subst. unfold values_for in *. cbn [filter fst]. destruct (beqb k n); cbn [map snd]; rewrite (IH N2); reflexivity.
  - cbn [map fst] in N. inversion N as [|? ? N1 _]; subst. assert (k <> k') by (intros ->; apply N1; left; reflexivity). unfold values_for. cbn [filter fst]. destruct (beqb k n) eqn:E1; destruct (beqb k' n) eqn:E2; try reflexivity. apply beqb_eq in E1, E2. congruence.
  - rewrite (IH1 N). apply IH2. revert N. apply Permutation_NoDup, Permutation_map, P1.
Qed.

Lemma known_parses io defs ss files w : NoDup (map fst defs) -> line (is_switch defs) ss files w -> known_options io defs ss -> exists vs, meant io defs ss vs /\ parse_flags io defs w = Done (vs, files).
Proof.
  intros N L K. assert (H : exists vs, meant io defs ss vs).
  { clear L. revert defs N K. induction ss as [|[n v] ss IH]; intros defs N K; [exists defs; apply meant_start; reflexivity|]. destruct (K n v (or_introl eq_refl)) as (d & I & Se). apply (find_in _ _ _ N) in I. apply set_sensible in Se. destruct Se as (x & S).
    destruct (IH (put_flag defs n x)) as (vs & M); [rewrite put_names; exact N|apply (known_put io n v x defs d ss N I S); intros m u J; apply K; right; exact J|]. exists vs. apply (meant_put io n v x ss defs d vs N I S), M. }
  destruct H as (vs & M). exists vs. split; [exact M|]. apply (parse_exact _ _ _ _ _ N). exists ss. auto.
Qed.
Lemma same_values io defs ss ss' files w w' : NoDup (map fst defs) -> line (is_switch defs) ss files w -> line (is_switch defs) ss' files w' -> known_options io defs ss -> known_options io defs ss' ->
  (forall n, values_for n ss = values_for n ss') -> parse_flags io defs w = parse_flags io defs w'.
Proof.
  intros N L L' K K' E. destruct (known_parses io defs ss files w N L K) as (vs & M & ->). destruct (known_parses io defs ss' files w' N L' K') as (vs' & M' & ->). rewrite (meant_unique _ _ _ _ _ _ E M M'). reflexivity.
Qed.
(** The order of different options does not matter, and neither does how they are written. *)
Theorem C115_order W c ss ss' files args args' :
  line (is_switch (command_flags c)) ss files args -> line (is_switch (command_flags c)) ss' files args' -> known_options (int_of W) (command_flags c) ss ->
  Permutation ss ss' -> NoDup (map fst ss) -> command_options W c args = command_options W c args'.
Proof.
  intros L L' K P N. unfold command_options. rewrite (same_values (int_of W) (command_flags c) ss ss' files args args'); [reflexivity|apply flags_distinct|exact L|exact L'|exact K| |].
  - intros n v I. apply K. revert I. apply Permutation_in, Permutation_sym, P.
  - intros n. apply values_permuted; assumption.
Qed.
(** The options are those of the help texts. *)
Definition option_eq_dec (p q : bytes * fval) : {p = q} + {p <> q}.
Proof.
  destruct p as (n & d), q as (m & e). destruct (list_eq_dec Ascii.ascii_dec n m) as [-> |N]; [|right; congruence].
  destruct d as [s|b|z|l], e as [s'|b'|z'|l']; try (right; discriminate).
  - destruct (list_eq_dec Ascii.ascii_dec s s') as [-> |N]; [left; reflexivity|right; congruence].
  - destruct (Bool.bool_dec b b') as [-> |N]; [left; reflexivity|right; congruence].
  - destruct (Z.eq_dec z z') as [-> |N]; [left; reflexivity|right; congruence].
  - destruct (list_eq_dec (list_eq_dec Ascii.ascii_dec) l l') as [-> |N]; [left; reflexivity|right; congruence].
Defined.
Definition command_eq_dec (c d : command) : {c = d} + {c <> d}.
Proof. decide equality. Defined.
Definition has (c : command) (cs : list command) : bool := if in_dec command_eq_dec c cs then true else false.
Definition documented_list (c : command) : list (bytes * fval) :=
  map (fun p => (B (fst (fst p)), FStr (B (snd (fst p))))) (filter (fun p => has c (snd p)) text_options) ++
  map (fun p => (B (fst p), FBool false)) (filter (fun p => has c (snd p)) switch_options) ++
  map (fun p => (B (fst (fst p)), FInt (snd (fst p)))) (filter (fun p => has c (snd p)) number_options) ++
  map (fun p => (B (fst p), FList [])) (filter (fun p => has c (snd p)) repeated_options).
Lemma has_in c cs : has c cs = true <-> In c cs.
Proof. unfold has. destruct (in_dec command_eq_dec c cs); split; auto; discriminate. Qed.
Lemma documented_in c n d : documented c n d <-> In (n, d) (documented_list c).
Proof.
  unfold documented, documented_list. rewrite !in_app_iff, !in_map_iff. split.
  - intros [(k & t & cs & I & C & -> & ->)|[(k & cs & I & C & -> & ->)|[(k & z & cs & I & C & -> & ->)|(k & cs & I & C & -> & ->)]]]; [left|right; left|right; right; left|right; right; right];
      [exists (k, t, cs)|exists (k, cs)|exists (k, z, cs)|exists (k, cs)]; (split; [reflexivity|]); apply filter_In; (split; [exact I|]); apply has_in; exact C.
  - intros [H|[H|[H|H]]]; [left|right; left|right; right; left|right; right; right].
    + destruct H as ([[k t] cs] & E & I). apply filter_In in I. destruct I as (I & C). apply has_in in C. injection E as <- <-. exists k, t, cs. auto.
    + destruct H as ([k cs] & E & I). apply filter_In in I. destruct I as (I & C). apply has_in in C. injection E as <- <-. exists k, cs. auto.
    + destruct H as ([[k z] cs] & E & I). apply filter_In in I. destruct I as (I & C). apply has_in in C. injection E as <- <-. exists k, z, cs. auto.
    + destruct H as ([k cs] & E & I). apply filter_In in I. destruct I as (I & C). apply has_in in C. injection E as <- <-. exists k, cs. auto.
Qed.
Definition inside (l l' : list (bytes * fval)) : bool := forallb (fun p => if in_dec option_eq_dec p l' then true else false) l.
Lemma inside_incl l l' : inside l l' = true -> incl l l'.
Proof. unfold inside. rewrite forallb_forall. intros H p I. specialize (H p I). destruct (in_dec option_eq_dec p l'); [assumption|discriminate]. Qed.
Theorem C115_options c n d : In (n, d) (command_flags c) <-> documented c n d.
Proof.
  rewrite documented_in. split; apply inside_incl; destruct c; vm_compute; reflexivity.
Qed.
Theorem C115_lists c n : (In n (list_flags c) <-> In n comma_options /\ is_flag (command_flags c) n) /\ (In n (time_flags c) <-> In n time_options /\ is_flag (command_flags c) n).
Proof.
  assert (X : forall names l fs : list bytes, forallb (fun m => bmem m names && bmem m fs) l = true -> forallb (fun m => if bmem m fs then bmem m l else true) names = true -> (In n l <-> In n names /\ In n fs)).
  { intros names l fs H1 H2. rewrite forallb_forall in H1, H2. split.
    - intros I. specialize (H1 n I). apply andb_true_iff in H1. rewrite !bmem_In in H1. exact H1.
    - intros (I & J). specialize (H2 n I). rewrite (proj2 (bmem_In n fs) J) in H2. apply bmem_In, H2. }
  unfold is_flag. split; apply X; destruct c; vm_compute; reflexivity.
Qed.
(** The help of dump writes -dir, but dump has no such option. *)
Theorem C115_dump_dir W db rest : command_options W Dump (B"-db" :: db :: B"-dir" :: rest) = Wrong.
Proof. reflexivity. Qed.

(** ** C95 *)
Lemma written_for (P Q : bytes -> Prop) n v w : (P n <-> Q n) -> written P n v w -> written Q n v w.
Proof. intros E H. destruct H; constructor; tauto. Qed.
Lemma settings_for (P Q : bytes -> Prop) ss w : (forall n, In n (map fst ss) -> (P n <-> Q n)) -> settings P ss w -> settings Q ss w.
Proof.
  intros E H. induction H as [|n v w ss r W H IH]; [constructor|]. constructor.
  - apply (written_for P Q); [apply E; left; reflexivity|exact W].
  - apply IH. intros m I. apply E. right. exact I.
Qed.
Lemma settings_line P ss w ss2 files r : settings P ss w -> line P ss2 files r -> line P (ss ++ ss2) files (w ++ r).
Proof. intros H L. induction H as [|n v w ss r' W H IH]; [exact L|]. rewrite <- app_assoc. cbn [app]. constructor; [exact W|exact IH]. Qed.
Lemma settings_app P ss w ss2 w2 : settings P ss w -> settings P ss2 w2 -> settings P (ss ++ ss2) (w ++ w2).
Proof. intros H L. induction H as [|n v w ss r' W H IH]; [exact L|]. rewrite <- app_assoc. cbn [app]. constructor; [exact W|exact IH]. Qed.
(** All subcommands have both options. *)
Theorem C95_accepted c n : global n -> exists d, In (n, FStr d) (command_flags c).
Proof. intros [-> | ->]; apply text_in; destruct c; vm_compute; reflexivity. Qed.
Lemma not_switch defs n d : NoDup (map fst defs) -> In (n, FStr d) defs -> ~ is_switch defs n.
Proof. intros N I (b & J). apply (find_in _ _ _ N) in I, J. congruence. Qed.
Lemma global_known io defs gs : (forall n, global n -> exists d, In (n, FStr d) defs) -> (forall n, In n (map fst gs) -> global n) -> known_options io defs gs.
Proof. intros D G n v I. destruct (D n) as (d & J); [apply G, in_map_iff; exists (n, v); auto|]. exists (FStr d). split; [exact J|exact Logic.I]. Qed.
Lemma global_texts n : global n -> exists d, In (n, FStr d) global_flags.
Proof. intros [-> | ->]; apply text_in; vm_compute; reflexivity. Qed.
Definition no_switch (_ : bytes) : Prop := False.
Lemma global_line defs gs pre : NoDup (map fst defs) -> (forall n, global n -> exists d, In (n, FStr d) defs) -> settings no_switch gs pre -> (forall n, In n (map fst gs) -> global n) -> settings (is_switch defs) gs pre.
Proof.
  intros N D S G. revert S. apply settings_for. intros n I. split; [intros []|]. destruct (D n (G n I)) as (d & J). intros Sw. exact (not_switch defs n d N J Sw).
Qed.
Lemma called_file c : looks_like_file (called c).
Proof. right. destruct c; discriminate. Qed.
Lemma main_forward W gs pre sub rest : settings no_switch gs pre -> (forall n, In n (map fst gs) -> global n) -> looks_like_file sub ->
  main_args W (pre ++ sub :: rest) = Done (Some (sub, pre ++ rest)).
Proof.
  intros S G L. unfold main_args. destruct (known_parses (int_of W) global_flags gs (sub :: rest) (pre ++ sub :: rest)) as (vs & _ & ->).
  - exact global_distinct.
  - rewrite <- (app_nil_r gs). apply settings_line; [apply (global_line _ _ _ global_distinct global_texts S G)|constructor; exact L].
  - apply (global_known _ _ _ global_texts G).
  - rewrite app_length, Nat.add_sub, firstn_app, Nat.sub_diag, firstn_all. cbn [firstn]. rewrite app_nil_r. reflexivity.
Qed.
Theorem C95_commands W run gs pre c rest : settings no_switch gs pre -> (forall n, In n (map fst gs) -> global n) ->
  main_ending W run (pre ++ called c :: rest) = main_ending W run (called c :: pre ++ rest).
Proof.
  intros S G. set (sub := called c). pose proof (called_file c : looks_like_file sub) as L. unfold main_ending. rewrite (main_forward W gs pre sub rest S G L).
  pose proof (main_forward W [] [] sub (pre ++ rest) (settings_none _)) as E. cbn [app] in E. rewrite E; [reflexivity|intros n []|exact L].
Qed.
(** The same is true for options that are written behind others of the subcommand, as long as those do not give the same
    options. *)
Theorem C95_anywhere W run c gs pre s1 w1 s2 files w2 : settings no_switch gs pre -> (forall n, In n (map fst gs) -> global n) ->
  settings (is_switch (command_flags c)) s1 w1 -> line (is_switch (command_flags c)) s2 files w2 -> known_options (int_of W) (command_flags c) (s1 ++ s2) ->
  (forall n, In n (map fst gs) -> ~ In n (map fst s1)) ->
  main_ending W run (pre ++ called c :: w1 ++ w2) = main_ending W run (called c :: w1 ++ pre ++ w2).
Proof.
  intros S G S1 L2 K D. rewrite (C95_commands W run gs pre c (w1 ++ w2) S G). set (sub := called c). pose proof (called_file c : looks_like_file sub) as L. assert (C : command_name sub = Some c) by (destruct c; vm_compute; reflexivity). unfold main_ending.
  pose proof (main_forward W [] [] sub (pre ++ w1 ++ w2) (settings_none _)) as E1. cbn [app] in E1. rewrite E1; [|intros n []|exact L]. clear E1.
  pose proof (main_forward W [] [] sub (w1 ++ pre ++ w2) (settings_none _)) as E1. cbn [app] in E1. rewrite E1; [|intros n []|exact L]. clear E1.
  rewrite C. assert (E : command_options W c (pre ++ w1 ++ w2) = command_options W c (w1 ++ pre ++ w2)); [|rewrite E; reflexivity].
  pose proof (global_line _ _ _ (flags_distinct c) (C95_accepted c) S G) as Sc. pose proof (global_known (int_of W) _ _ (C95_accepted c) G) as Kc.
  unfold command_options. rewrite (same_values (int_of W) (command_flags c) (gs ++ s1 ++ s2) (s1 ++ gs ++ s2) files (pre ++ w1 ++ w2) (w1 ++ pre ++ w2)); [reflexivity|apply flags_distinct| | | | |].
  - apply settings_line; [exact Sc|]. apply settings_line; assumption.
  - apply settings_line; [exact S1|]. apply settings_line; assumption.
  - intros n v J. apply in_app_or in J. destruct J as [J|J]; [apply Kc, J|apply K, J].
  - intros n v J. apply in_app_or in J. destruct J as [J|J]; [apply K, in_or_app; left; exact J|]. apply in_app_or in J. destruct J as [J|J]; [apply Kc, J|apply K, in_or_app; right; exact J].
  - intros n. rewrite !values_mid. destruct (in_dec (list_eq_dec Ascii.ascii_dec) n (map fst gs)) as [J|J].
    + rewrite (values_in s1 n (D n J)). reflexivity.
    + rewrite (values_in gs n J). reflexivity.
Qed.
(** ** C96 *)
Lemma parse_help io : forall k args cur, List.length args <= k -> parse_flags io cur args = AskedHelp -> exists a, In a args /\ help_argument a.
Proof.
  induction k as [|k IH]; intros [|s args] cur L P; try (cbn in L; lia); try discriminate P. cbn [List.length] in L.
  pose proof (argument_inv s) as A. cbn [parse_flags] in P. destruct (argument_of s) as [| | |n given] eqn:E; try discriminate P.
  destruct A as (d & D & _ & ->). destruct (find_flag cur n) as [old|] eqn:F.
  - assert (R : forall args' cur', List.length args' <= k -> (forall a, In a args' -> In a args) -> parse_flags io cur' args' = AskedHelp -> exists a, In a ((d ++ n ++ match given with Some x => B"=" ++ x | None => [] end) :: args) /\ help_argument a).
    { intros args' cur' L' I P'. destruct (IH args' cur' L' P') as (a & J & H). exists a. split; [right; apply I, J|exact H]. }
    destruct old, given; try (destruct (set_value io _ _); [|discriminate P]; refine (R _ _ _ _ P); [lia|auto]);
    (destruct args as [|v args]; [discriminate P|]; destruct (set_value io _ _); [|discriminate P]; refine (R _ _ _ _ P); [cbn in L; lia|intros a J; right; exact J]).
  - destruct (beqb n (B"help") || beqb n (B"h")) eqn:H; [|discriminate P]. exists (d ++ n ++ match given with Some x => B"=" ++ x | None => [] end). split; [left; reflexivity|]. exists d, n. split; [exact D|]. split.
    + apply orb_true_iff in H. destruct H as [H|H]; apply beqb_eq in H; auto.
    + destruct given as [t|]; [right; exists t; reflexivity|left; rewrite app_nil_r; reflexivity].
Qed.
Lemma command_called c : command_name (called c) = Some c.
Proof. destruct c; vm_compute; reflexivity. Qed.
Lemma called_command sub c : command_name sub = Some c -> sub = called c.
Proof.
  unfold command_name. intros H. repeat match type of H with (if beqb sub ?x then _ else _) = _ => let E := fresh in destruct (beqb sub x) eqn:E; [apply beqb_eq in E; injection H as <-; exact E|] end. discriminate H.
Qed.
Lemma line_files_in P gs files args : line P gs files args -> forall a, In a files -> In a args.
Proof. intros L a J. induction L as [|f fs0 Lf|fs0|n v w ss fs0 r W L IH]; [exact J|exact J|right; exact J|apply in_or_app; right; apply IH, J]. Qed.
Lemma options_help W c args : command_options W c args = AskedHelp -> parse_flags (int_of W) (command_flags c) args = AskedHelp.
Proof.
  unfold command_options. destruct (parse_flags (int_of W) (command_flags c) args) as [[vs rest]| |]; [|reflexivity|discriminate]. destruct (needs_db c && _); [discriminate|]. destruct (needs_dir c && _); [discriminate|]. destruct (durations _ _ _); discriminate.
Qed.
(** The only other case is a line without a known subcommand. *)
Theorem C96_commands_partial W run args : e_status (main_ending W run args) = 0 ->
  (exists c o, e_run (main_ending W run args) = Some (c, o) /\ run c o = true) \/ (exists a, In a args /\ help_argument a) \/
  (exists gs files, line (is_switch global_flags) gs files args /\ known_options (int_of W) global_flags gs /\ forall c, hd_error files <> Some (called c)).
Proof.
  unfold main_ending, main_args. destruct (parse_flags (int_of W) global_flags args) as [[vs files]| |] eqn:P.
  - apply (parse_exact _ _ _ _ _ global_distinct) in P. destruct P as (gs & L & K & _). destruct files as [|sub rest].
    + intros _. right. right. exists gs, []. split; [exact L|]. split; [exact K|discriminate].
    + destruct (command_name sub) as [c|] eqn:C.
      * set (args' := firstn _ _ ++ rest). destruct (command_options W c args') as [o| |] eqn:O.
        -- cbn [e_status e_run]. destruct (run c o) eqn:R; [|discriminate]. intros _. left. exists c, o. auto.
        -- intros _. right. left. apply options_help in O. destruct (parse_help _ _ _ _ (le_n _) O) as (a & J & H). exists a. split; [|exact H]. unfold args' in J. apply in_app_or in J. destruct J as [J|J].
           ++ rewrite <- (firstn_skipn (Datatypes.length args - Datatypes.length (sub :: rest)) args). apply in_or_app. left. exact J.
           ++ apply (line_files_in _ _ _ _ L). right. exact J.
        -- discriminate.
      * intros _. right. right. exists gs, (sub :: rest). split; [exact L|]. split; [exact K|]. intros c H. injection H as ->. rewrite command_called in C. discriminate C.
  - intros _. right. left. destruct (parse_help _ _ _ _ (le_n _) P) as (a & J & H). exists a. auto.
  - discriminate.
Qed.
(** With a subcommand it is this one that is run. *)
Theorem C96_command W run gs c rest args : line (is_switch global_flags) gs (called c :: rest) args -> known_options (int_of W) global_flags gs ->
  (exists o, e_run (main_ending W run args) = Some (c, o) /\ e_status (main_ending W run args) = if run c o then 0 else 1) \/
  e_run (main_ending W run args) = None /\ (e_status (main_ending W run args) = 1 \/ exists a, In a args /\ help_argument a).
Proof.
  intros L K. destruct (known_parses (int_of W) global_flags gs (called c :: rest) args global_distinct L K) as (vs & _ & P).
  unfold main_ending, main_args. rewrite P, command_called. set (args' := firstn _ _ ++ rest). destruct (command_options W c args') as [o| |] eqn:O.
  - left. exists o. auto.
  - right. split; [reflexivity|]. right. apply options_help in O. destruct (parse_help _ _ _ _ (le_n _) O) as (a & J & H). exists a. split; [|exact H]. unfold args' in J. apply in_app_or in J. destruct J as [J|J].
    + rewrite <- (firstn_skipn (Datatypes.length args - Datatypes.length (called c :: rest)) args). apply in_or_app. left. exact J.
    + apply (line_files_in _ _ _ _ L). right. exact J.
  - right. split; [reflexivity|]. left. reflexivity.
Qed.
(** Asking for help is no error, and nothing is run. *)
Lemma settings_parsed io sw : forall ss w r, settings sw ss w -> forall cur vs, switches sw cur -> apply_settings io cur ss = Some vs -> parse_flags io cur (w ++ r) = parse_flags io vs r.
Proof.
  intros ss w r H. induction H as [|n v w ss r' W H IH]; intros cur vs Sw A.
  - injection A as ->. reflexivity.
  - cbn [apply_settings] in A. destruct (find_flag cur n) as [old|] eqn:F; [|discriminate A]. destruct (set_value io old v) as [x|] eqn:S; [|discriminate A].
    rewrite <- app_assoc. rewrite <- (IH (put_flag cur n x) vs (switches_put io sw cur n old v x Sw F S) A). destruct W as [d n v D N|d n v D N NB|d n D N NB]; cbn [app].
    + rewrite (parse_step io cur _ _ n (Some v) old (argument_equal d n v D N) F). unfold continue. rewrite S. destruct old; reflexivity.
    + rewrite (parse_step io cur _ _ n None old (argument_alone d n D N) F). unfold continue. rewrite S. destruct old as [s|b|z|l]; try reflexivity. exfalso. apply NB, (Sw n _ F). exists b. reflexivity.
    + rewrite (parse_step io cur _ _ n None old (argument_alone d n D N) F). unfold continue. apply (Sw n _ F) in NB. destruct NB as (b & ->). rewrite S. reflexivity.
Qed.
Lemma help_asked io vs a r : help_argument a -> find_flag vs (B"h") = None -> find_flag vs (B"help") = None -> parse_flags io vs (a :: r) = AskedHelp.
Proof.
  intros (d & n & D & N & A) F1 F2. assert (O : option_name n) by (destruct N as [-> | ->]; (split; [discriminate|split; [discriminate|cbn; intuition discriminate]])).
  assert (E : exists given, argument_of a = FlagArg n given) by (destruct A as [-> |(t & ->)]; eexists; [apply (argument_alone d n D O)|apply (argument_equal d n t D O)]).
  destruct E as (given & E). cbn [parse_flags]. rewrite E. destruct N as [-> | ->]; [rewrite F1|rewrite F2]; reflexivity.
Qed.
Lemma apply_missing io n : forall ss cur vs, apply_settings io cur ss = Some vs -> find_flag cur n = None -> find_flag vs n = None.
Proof.
  induction ss as [|[m v] ss IH]; intros cur vs A F; cbn [apply_settings] in A; [injection A as <-; exact F|]. destruct (find_flag cur m) as [d|] eqn:E; [|discriminate A]. destruct (set_value io d v) as [x|]; [|discriminate A].
  apply (IH _ _ A). rewrite find_put. destruct (beqb m n); [rewrite F|exact F]. reflexivity.
Qed.
Lemma known_applied io defs ss : NoDup (map fst defs) -> known_options io defs ss -> exists vs, apply_settings io defs ss = Some vs.
Proof.
  revert defs. induction ss as [|[n v] ss IH]; intros defs N K; [eexists; reflexivity|]. destruct (K n v (or_introl eq_refl)) as (d & I & Se). apply (find_in _ _ _ N) in I. apply set_sensible in Se. destruct Se as (x & S).
  cbn [apply_settings]. rewrite I, S. apply IH; [rewrite put_names; exact N|]. apply (known_put io n v x defs d ss N I S). intros m u J. apply K. right. exact J.
Qed.
Theorem C96_help W run c ss w a rest : settings (is_switch (command_flags c)) ss w -> known_options (int_of W) (command_flags c) ss -> help_argument a ->
  main_ending W run (called c :: w ++ a :: rest) = Ending None 0.
Proof.
  intros S K H. assert (L : looks_like_file (called c)) by (right; destruct c; discriminate). unfold main_ending.
  pose proof (main_forward W [] [] (called c) (w ++ a :: rest) (settings_none _)) as E. cbn [app] in E. rewrite E; [|intros n []|exact L]. rewrite command_called.
  destruct (known_applied _ _ _ (flags_distinct c) K) as (vs & A). unfold command_options. rewrite (settings_parsed _ _ _ _ _ S _ _ (defs_switches _ (flags_distinct c)) A).
  rewrite (help_asked _ vs a rest H); [reflexivity|apply (apply_missing _ _ _ _ _ A); destruct c; vm_compute; reflexivity..].
Qed.
(** Without a known subcommand nothing is run, and the status is 0 all the same. *)
Theorem C96_silent W run gs files args : line (is_switch global_flags) gs files args -> known_options (int_of W) global_flags gs -> (forall c, hd_error files <> Some (called c)) ->
  main_ending W run args = Ending None 0.
Proof.
  intros L K H. destruct (known_parses (int_of W) global_flags gs files args global_distinct L K) as (vs & _ & P). unfold main_ending, main_args. rewrite P. destruct files as [|sub rest]; [reflexivity|].
  destruct (command_name sub) as [c|] eqn:C; [|reflexivity]. destruct (H c). rewrite (called_command sub c C). reflexivity.
Qed.

(** ** The model of main in ModelMain.v and this one agree *)
Definition kind_of (x : fval) : ModelMain.kind := match x with FStr _ | FList _ => ModelMain.KString | FBool _ => ModelMain.KBool | FInt _ => ModelMain.KInt end.
Definition int_ok (io : bytes -> option Z) (s : bytes) : bool := match io s with Some _ => true | None => false end.
Lemma cut_same s : cut_byte ModelMain.equals s = match cut_equal s with (n, Some v) => Some (n, v) | (_, None) => None end.
Proof.
  unfold ModelMain.equals. induction s as [|c s IH]; [reflexivity|]. cbn [cut_byte cut_equal]. destruct (ceqb c "="); [reflexivity|]. rewrite IH. destruct (cut_equal s) as (n, [v|]); reflexivity.
Qed.
Lemma cut_whole s n : cut_equal s = (n, None) -> n = s.
Proof. intros H. destruct (cut_inv s n None H) as (_ & ->). rewrite app_nil_r. reflexivity. Qed.
Lemma argument_same s : argument_of s = match ModelMain.flag_of s with ModelMain.NotFlag => NoFlag | ModelMain.Terminator => Terminator | ModelMain.BadSyntax => BadFlag | ModelMain.Flag n v => FlagArg n v end.
Proof.
  destruct s as [|a [|b r]]; [reflexivity..|]. unfold argument_of, ModelMain.flag_of, ModelMain.minus. destruct (ceqb a "-"); [|reflexivity].
  assert (X : forall c t, (if ceqb c "-" || ceqb c "=" then BadFlag else let (n, v) := name_value (c :: t) in FlagArg n v) =
    match (if ceqb c "-" || ceqb c ModelMain.equals then ModelMain.BadSyntax else match cut_byte ModelMain.equals (c :: t) with Some (n, v) => ModelMain.Flag n (Some v) | None => ModelMain.Flag (c :: t) None end) with
    | ModelMain.NotFlag => NoFlag | ModelMain.Terminator => Terminator | ModelMain.BadSyntax => BadFlag | ModelMain.Flag n v => FlagArg n v end).
  { intros c t. unfold ModelMain.equals at 1. destruct (ceqb c "-" || ceqb c "=") eqn:E; [reflexivity|]. apply orb_false_iff in E. destruct E as (_ & E). cbn [name_value cut_byte]. unfold ModelMain.equals at 1. rewrite E, cut_same. destruct (cut_equal t) as (n, [v|]) eqn:C; [reflexivity|]. rewrite (cut_whole t n C). reflexivity. }
  destruct (ceqb b "-") eqn:Eb; cbn [andb].
  - destruct r as [|c r]; [reflexivity|]. apply X.
  - apply X.
Qed.
Lemma value_same io d v : ModelMain.value_ok (int_ok io) (kind_of d) v = match set_value io d v with Some _ => true | None => false end.
Proof.
  destruct d as [s|b|z|l]; cbn [kind_of ModelMain.value_ok set_value]; try reflexivity.
  - unfold go_bool, ModelMain.bool_ok. destruct (bmem v (map B ["1"; "t"; "T"; "true"; "TRUE"; "True"]%string)) eqn:T; [apply bmem_In in T; apply bmem_In; cbn in *; tauto|].
    destruct (bmem v (map B ["0"; "f"; "F"; "false"; "FALSE"; "False"]%string)) eqn:F; [apply bmem_In in F; apply bmem_In; cbn in *; tauto|]. cbn [option_map].
    destruct (bmem v (map B ["1"; "t"; "T"; "TRUE"; "true"; "True"; "0"; "f"; "F"; "FALSE"; "false"; "False"]%string)) eqn:E; [|reflexivity]. apply bmem_In in E.
    exfalso. assert (Y : In v (map B ["1"; "t"; "T"; "true"; "TRUE"; "True"]%string) \/ In v (map B ["0"; "f"; "F"; "false"; "FALSE"; "False"]%string)) by (cbn in *; tauto).
    destruct Y as [Y|Y]; apply bmem_In in Y; congruence.
  - unfold int_ok. destruct (io v); reflexivity.
Qed.
Lemma kind_put io n d v x : forall cur flags, (forall m, flags m = option_map kind_of (find_flag cur m)) -> find_flag cur n = Some d -> set_value io d v = Some x -> forall m, flags m = option_map kind_of (find_flag (put_flag cur n x) m).
Proof.
  intros cur flags H F S m. rewrite H, find_put. destruct (beqb n m) eqn:E; [|reflexivity]. apply beqb_eq in E. subst m. rewrite F. cbn [option_map]. f_equal.
  destruct d as [s|b|z|l]; cbn [set_value] in S; [injection S as <-; reflexivity|destruct (go_bool v); [|discriminate S]; injection S as <-; reflexivity|destruct (io v); [|discriminate S]; injection S as <-; reflexivity|injection S as <-; reflexivity].
Qed.
Lemma parse_same io flags : forall k args cur, List.length args <= k -> (forall m, flags m = option_map kind_of (find_flag cur m)) ->
  parse_flags io cur args = match ModelMain.parse (int_ok io) flags args with
    | ModelMain.Parsed ss rest => match apply_settings io cur ss with Some vs => Done (vs, rest) | None => Wrong end
    | ModelMain.HelpAsked => AskedHelp
    | ModelMain.Wrong => Wrong
    end.
Proof.
  induction k as [|k IH]; intros [|s args] cur L Fl; try (cbn in L; lia); try reflexivity. cbn [List.length] in L. cbn [ModelMain.parse].
  pose proof (argument_same s) as A. destruct (ModelMain.flag_of s) as [| | |n given] eqn:E; cbn [parse_flags]; rewrite A; try reflexivity.
  rewrite Fl. destruct (find_flag cur n) as [d|] eqn:F; cbn [option_map]; [|destruct (beqb n (B"help") || beqb n (B"h")); reflexivity].
  assert (R : forall v args', List.length args' <= k ->
    match set_value io d v with Some x => parse_flags io (put_flag cur n x) args' | None => Wrong end =
    match (if ModelMain.value_ok (int_ok io) (kind_of d) v then ModelMain.add (n, v) (ModelMain.parse (int_ok io) flags args') else ModelMain.Wrong) with
    | ModelMain.Parsed ss rest => match apply_settings io cur ss with Some vs => Done (vs, rest) | None => Wrong end
    | ModelMain.HelpAsked => AskedHelp | ModelMain.Wrong => Wrong end).
  { intros v args' L'. rewrite value_same. destruct (set_value io d v) as [x|] eqn:S; [|reflexivity]. rewrite (IH args' (put_flag cur n x) L' (kind_put io n d v x cur flags Fl F S)).
    destruct (ModelMain.parse (int_ok io) flags args') as [ss rest| |]; cbn [ModelMain.add]; try reflexivity. cbn [apply_settings]. rewrite F, S. reflexivity. }
  destruct given as [v|].
  - pose proof (R v args ltac:(lia)) as Q. destruct d; exact Q.
  - destruct d as [t|b|z|l]; try (destruct args as [|v args]; [reflexivity|exact (R v args ltac:(cbn in L; lia))]).
    exact (R (B"true") args ltac:(lia)).
Qed.
(** What a command makes of its flags after they were parsed. *)
Definition finish (W : outside) (c : command) (vs : list (bytes * fval)) (rest : list bytes) : outcome options :=
  if needs_db c && (blank_text (text_flag vs (B"db")) || negb (known_db W (text_flag vs (B"db")))) then Wrong
  else if needs_dir c && blank_text (text_flag vs (B"dir")) then Wrong
  else match durations (duration_of W) vs (time_flags c) with
       | None => Wrong
       | Some ts => Done (Options vs (map (fun n => (n, split_list (text_flag vs n))) (list_flags c)) ts (files_of c (text_flag vs (B"dir")) rest))
       end.
Definition run_of (W : outside) (run : command -> options -> bool) (sub : bytes) (ss : list (bytes * bytes)) (rest : list bytes) : bool :=
  match command_name sub with
  | Some c => match apply_settings (int_of W) (command_flags c) ss with
              | Some vs => match finish W c vs rest with Done o => run c o | _ => false end
              | None => false
              end
  | None => false
  end.
Lemma look_same : forall (fs : ModelMain.flag_list) defs, map (fun p => (B (fst p), snd p)) fs = map (fun p : bytes * fval => (fst p, kind_of (snd p))) defs -> forall m, ModelMain.look fs m = option_map kind_of (find_flag defs m).
Proof.
  induction fs as [|[n k] fs IH]; intros [|[m x] defs] E q; try discriminate E; [reflexivity|]. cbn [map fst snd] in E. injection E as E1 E2 E3. cbn [ModelMain.look find_flag]. rewrite E1. destruct (beqb m q); [rewrite E2; reflexivity|apply IH, E3].
Qed.
Lemma look_called c : exists fs, ModelMain.look ModelMain.command_flags (called c) = Some fs /\ map (fun p => (B (fst p), snd p)) fs = map (fun p : bytes * fval => (fst p, kind_of (snd p))) (command_flags c).
Proof. destruct c; (eexists; split; [vm_compute; reflexivity|vm_compute; reflexivity]). Qed.
Lemma look_none sub : command_name sub = None -> ModelMain.look ModelMain.command_flags sub = None.
Proof.
  intros H. unfold ModelMain.command_flags. cbn [ModelMain.look]. repeat match goal with |- (if beqb ?x sub then _ else _) = _ => let E := fresh in destruct (beqb x sub) eqn:E; [exfalso; apply beqb_eq in E; subst sub; vm_compute in H; discriminate H|] end. reflexivity.
Qed.
Lemma finish_after W c args : command_options W c args = match parse_flags (int_of W) (command_flags c) args with AskedHelp => AskedHelp | Wrong => Wrong | Done (vs, rest) => finish W c vs rest end.
Proof. reflexivity. Qed.
Lemma finish_no_help W c vs rest : finish W c vs rest <> AskedHelp.
Proof. unfold finish. destruct (needs_db c && _); [discriminate|]. destruct (needs_dir c && _); [discriminate|]. destruct (durations _ _ _); discriminate. Qed.
Theorem C96_models W run args : ModelMain.status (ModelMain.main (int_ok (int_of W)) (run_of W run) args) = e_status (main_ending W run args).
Proof.
  unfold ModelMain.main, main_ending, main_args.
  pose proof (parse_same (int_of W) (ModelMain.look ModelMain.globals) _ args global_flags (le_n _) (look_same ModelMain.globals global_flags eq_refl)) as P.
  destruct (ModelMain.parse (int_ok (int_of W)) (ModelMain.look ModelMain.globals) args) as [ss rest| |] eqn:Q; rewrite P; [|reflexivity..].
  assert (A : exists vs, apply_settings (int_of W) global_flags ss = Some vs).
  { destruct (apply_settings (int_of W) global_flags ss) as [vs|] eqn:A; [eauto|]. exfalso. clear P. revert ss rest A Q. generalize global_flags (look_same ModelMain.globals global_flags eq_refl). generalize (le_n (List.length args)). generalize (List.length args) at 2 as k. intros k. revert args.
    induction k as [|k IH]; intros [|s args] L cur Fl ss rest A Q; try (cbn in L; lia); try (cbn in Q; injection Q as <- <-; discriminate A). cbn [List.length] in L. cbn [ModelMain.parse] in Q.
    destruct (ModelMain.flag_of s) as [| | |n given]; try discriminate Q; try (injection Q as <- <-; discriminate A). rewrite Fl in Q. destruct (find_flag cur n) as [d|] eqn:F; cbn [option_map] in Q; [|destruct (_ || _) in Q; discriminate Q].
    assert (R : forall v args', List.length args' <= k -> (if ModelMain.value_ok (int_ok (int_of W)) (kind_of d) v then ModelMain.add (n, v) (ModelMain.parse (int_ok (int_of W)) (ModelMain.look ModelMain.globals) args') else ModelMain.Wrong) = ModelMain.Parsed ss rest -> False).
    { intros v args' L' H. rewrite value_same in H. destruct (set_value (int_of W) d v) as [x|] eqn:S; [|discriminate H]. destruct (ModelMain.parse (int_ok (int_of W)) (ModelMain.look ModelMain.globals) args') as [ss' rest'| |] eqn:Q'; try discriminate H. cbn [ModelMain.add] in H. injection H as <- <-. cbn [apply_settings] in A. rewrite F, S in A.
      exact (IH args' L' (put_flag cur n x) (kind_put _ _ _ _ _ _ _ Fl F S) ss' rest' A Q'). }
    destruct given as [v|].
    - apply (R v args ltac:(lia)). destruct (kind_of d); exact Q.
    - destruct d as [t|b|z|l]; try (destruct args as [|v args]; [discriminate Q|exact (R v args ltac:(cbn in L; lia) Q)]). exact (R (B"true") args ltac:(lia) Q). }
  destruct A as (vs & A). rewrite A. destruct rest as [|sub rest]; [reflexivity|]. set (args' := firstn _ _ ++ rest). unfold ModelMain.subcommand.
  destruct (command_name sub) as [c|] eqn:C; [|rewrite (look_none sub C); reflexivity]. pose proof (called_command sub c C) as ->. destruct (look_called c) as (fs & -> & E).
  rewrite finish_after, (parse_same (int_of W) (ModelMain.look fs) _ args' (command_flags c) (le_n _) (look_same _ _ E)).
  destruct (ModelMain.parse (int_ok (int_of W)) (ModelMain.look fs) args') as [ss' rest'| |]; [|reflexivity..]. cbn [ModelMain.status]. unfold run_of. rewrite C.
  destruct (apply_settings (int_of W) (command_flags c) ss') as [vs'|]; [|reflexivity]. pose proof (finish_no_help W c vs' rest') as NH. destruct (finish W c vs' rest') as [o| |]; [reflexivity|contradiction|reflexivity].
Qed.

(** ** Examples *)
Definition num_outside : outside :=
  Outside (fun s => if beqb s (B"500") then Some 500%Z else if beqb s (B"0x10") then Some 16%Z else None)
    (fun s => if beqb s (B"1s") then Some 1000000000%Z else if beqb s (B"5m") then Some 300000000000%Z else None)
    (fun s => beqb s (B"app.db")).
Example migrate_line : command_options num_outside Migrate [B"-dir=./db"; B"--db"; B"app.db"; B"-verbose"; B"-max-attempts"; B"0x10"; B"--verbose=F"; B"db/1.sql"; B"-2.sql"] =
  Done (Options [str "db" "app.db"; str "dir" "./db"; str "history-table" "sqddl_history"; str "lock-timeout" "1s"; (B"max-attempts", FInt 16); str "max-delay" "5m"; str "base-delay" "1s"; boolean "verbose"; boolean "skip-history-table"]
    [] [(B"lock-timeout", 1000000000%Z); (B"max-delay", 300000000000%Z); (B"base-delay", 1000000000%Z)] [B"1.sql"; B"-2.sql"]).
Proof. vm_compute. reflexivity. Qed.
Example dump_line : exists vs, command_options num_outside Dump [B"-db=app.db"; B"-subset"; B"a"; B"-tables"; B"x,y"; B"-subset=b"] =
    Done (Options vs [(B"schemas", []); (B"exclude-schemas", []); (B"tables", [B"x"; B"y"]); (B"exclude-tables", [])] [] []) /\ In (B"subset", FList [B"a"; B"b"]) vs.
Proof. eexists. split; [vm_compute; reflexivity|vm_compute; tauto]. Qed.
Example rejected_lines : map (command_options num_outside Load) [[B"-db=other"]; []; [B"-db=app.db"; B"-batchsize"]; [B"-db=app.db"; B"-batchsize=many"]; [B"-db=app.db"; B"-verbose=yes"]; [B"-db=app.db"; B"-pending"]; [B"-db=app.db"; B"---verbose"]] = repeat Wrong 7.
Proof. vm_compute. reflexivity. Qed.
Example a_line : line (is_switch (command_flags Load)) [(B"db", B"app.db"); (B"verbose", B"true"); (B"batchsize", B"500")] [B"db"] [B"-db"; B"app.db"; B"--verbose"; B"-batchsize=500"; B"db"].
Proof.
  assert (S : ~ is_switch (command_flags Load) (B"db")) by (apply (not_switch _ _ []); [apply flags_distinct|vm_compute; tauto]).
  assert (N : forall n, In n (map fst (command_flags Load)) -> option_name n).
  { intros n I. cbn in I. repeat (destruct I as [<-|I]; [split; [discriminate|split; [discriminate|cbn; intuition discriminate]]|]). destruct I. }
  apply (line_option _ (B"db") (B"app.db") [B"-db"; B"app.db"]); [apply (written_apart _ (B"-")); [left; reflexivity|apply N; vm_compute; tauto|exact S]|].
  apply (line_option _ (B"verbose") (B"true") [B"--verbose"]); [apply (written_alone _ (B"--")); [right; reflexivity|apply N; vm_compute; tauto|exists false; vm_compute; tauto]|].
  apply (line_option _ (B"batchsize") (B"500") [B"-batchsize=500"]); [apply (written_equal _ (B"-")); [left; reflexivity|apply N; vm_compute; tauto]|].
  apply line_files. right. discriminate.
Qed.
Example a_global : settings no_switch [(B"db", B"app.db"); (B"history-table", B"h")] [B"-db"; B"app.db"; B"--history-table=h"] /\ (forall n, In n (map fst [(B"db", B"app.db"); (B"history-table", B"h")]) -> global n).
Proof.
  split; [|intros n [<-|[<-|[]]]; [left|right]; reflexivity].
  apply (settings_more _ (B"db") (B"app.db") [B"-db"; B"app.db"]); [apply (written_apart _ (B"-")); [left; reflexivity|split; [discriminate|split; [discriminate|cbn; intuition discriminate]]|intros []]|].
  apply (settings_more _ (B"history-table") (B"h") [B"--history-table=h"]); [apply (written_equal _ (B"--")); [right; reflexivity|split; [discriminate|split; [discriminate|cbn; intuition discriminate]]]|constructor].
Qed.
Example both_places : main_ending num_outside (fun _ _ => true) (map B ["-db"; "app.db"; "ls"; "-dir"; "db"]%string) = main_ending num_outside (fun _ _ => true) (map B ["ls"; "-dir"; "db"; "-db"; "app.db"]%string) /\
  e_run (main_ending num_outside (fun _ _ => true) (map B ["-db"; "app.db"; "ls"; "-dir"; "db"]%string)) <> None.
Proof. vm_compute. split; [reflexivity|discriminate]. Qed.
Example statuses : map (fun a => e_status (main_ending num_outside (fun c _ => match c with Wipe => false | _ => true end) (map B a)))
  [["ls"; "-db=app.db"; "-dir=db"]; ["ls"; "-db=app.db"]; ["wipe"; "-db"; "app.db"]; ["migrate"; "--help"]; ["migrat"]; []; ["-dir"; "x"; "ls"]]%string = [0; 1; 1; 0; 0; 0; 1].
Proof. vm_compute. reflexivity. Qed.

Print Assumptions C95_commands. Print Assumptions C95_anywhere. Print Assumptions C95_accepted.
Print Assumptions C115_refuted. Print Assumptions C115_partial. Print Assumptions C115_order. Print Assumptions C115_options. Print Assumptions C115_lists. Print Assumptions C115_dump_dir.
Print Assumptions C96_commands_partial. Print Assumptions C96_command. Print Assumptions C96_help. Print Assumptions C96_silent. Print Assumptions C96_models.
