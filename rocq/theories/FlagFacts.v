(** Parsing flags: what is accepted, and the values. *)
From Coq Require Import Lia.
From Verif Require Import GoStr GoStrFacts ModelFlags SpecFlags.

(** ** Arguments *)
Lemma cut_plain s : ~ In "="%char s -> cut_equal s = (s, None).
Proof.
  induction s as [|c s IH]; [reflexivity|]. intros N. cbn [cut_equal]. destruct (ceqb c "=") eqn:E; [apply ceqb_eq in E; destruct N; left; exact E|]. rewrite IH; [reflexivity|]. intros I. apply N. right. exact I.
Qed.
Lemma cut_at s v : ~ In "="%char s -> cut_equal (s ++ B"=" ++ v) = (s, Some v).
Proof.
  induction s as [|c s IH]; [reflexivity|]. intros N. cbn [app cut_equal]. destruct (ceqb c "=") eqn:E; [apply ceqb_eq in E; destruct N; left; exact E|]. cbn [app] in IH. rewrite IH; [reflexivity|]. intros I. apply N. right. exact I.
Qed.
Lemma cut_inv s : forall n v, cut_equal s = (n, v) -> ~ In "="%char n /\ s = n ++ match v with Some x => B"=" ++ x | None => [] end.
Proof.
  induction s as [|c s IH]; cbn [cut_equal]; intros n v H.
  - injection H as <- <-. split; [intros []|reflexivity].
  - destruct (ceqb c "=") eqn:E.
    + injection H as <- <-. apply ceqb_eq in E. subst c. split; [intros []|reflexivity].
    + destruct (cut_equal s) as (n', v') eqn:C. injection H as <- <-. destruct (IH _ _ eq_refl) as (N & ->). split; [|reflexivity]. intros [I|I]; [subst c; rewrite (proj2 (ceqb_eq _ _) eq_refl) in E; discriminate E|apply N, I].
Qed.
Lemma name_parts n : option_name n -> exists c r, n = c :: r /\ ceqb c "-" = false /\ ceqb c "=" = false /\ ~ In "="%char r.
Proof.
  intros (N & D & E). destruct n as [|c r]; [contradiction|]. exists c, r. split; [reflexivity|]. split; [|split].
  - destruct (ceqb c "-") eqn:X; [apply ceqb_eq in X; subst c; destruct D; reflexivity|reflexivity].
  - destruct (ceqb c "=") eqn:X; [apply ceqb_eq in X; subst c; destruct E; left; reflexivity|reflexivity].
  - intros I. apply E. right. exact I.
Qed.
Lemma argument_named d n t : dashes d -> option_name n -> argument_of (d ++ n ++ t) = let (m, v) := name_value (n ++ t) in FlagArg m v.
Proof.
  intros D N. destruct (name_parts n N) as (c & r & -> & E1 & E2 & _). destruct D as [-> | ->]; cbn [app B argument_of].
  - rewrite E1. change (ceqb "-" "-") with true. cbn iota. rewrite E1, E2. reflexivity.
  - change (ceqb "-" "-") with true. cbn iota. rewrite E1, E2. reflexivity.
Qed.
Lemma argument_equal d n v : dashes d -> option_name n -> argument_of (d ++ n ++ B"=" ++ v) = FlagArg n (Some v).
Proof. intros D N. rewrite (argument_named d n _ D N). destruct (name_parts n N) as (c & r & -> & _ & _ & E). cbn [app name_value]. rewrite (cut_at r v E). reflexivity. Qed.
Lemma argument_alone d n : dashes d -> option_name n -> argument_of (d ++ n) = FlagArg n None.
Proof. intros D N. rewrite <- (app_nil_r n) at 1. rewrite (argument_named d n [] D N), app_nil_r. destruct (name_parts n N) as (c & r & -> & _ & _ & E). cbn [name_value]. rewrite (cut_plain r E). reflexivity. Qed.
Lemma argument_file s : looks_like_file s -> argument_of s = NoFlag.
Proof.
  intros [-> |H]; [reflexivity|]. destruct s as [|a [|b r]]; [reflexivity..|]. cbn [argument_of]. destruct (ceqb a "-") eqn:E; [apply ceqb_eq in E; subst a; destruct H; reflexivity|reflexivity].
Qed.
Lemma argument_inv s : match argument_of s with
  | NoFlag => looks_like_file s
  | Terminator => s = B"--"
  | BadFlag => True
  | FlagArg n v => exists d, dashes d /\ option_name n /\ s = d ++ n ++ match v with Some x => B"=" ++ x | None => [] end
  end.
Proof.
  destruct s as [|a [|b r]]; cbn [argument_of].
  - right. discriminate.
  - destruct (ceqb a "-") eqn:E; [apply ceqb_eq in E; subst a; left; reflexivity|]. right. intros H. injection H as ->. discriminate E.
  - destruct (ceqb a "-") eqn:E; [|right; intros H; injection H as ->; discriminate E]. apply ceqb_eq in E. subst a.
    assert (K : forall d name, dashes d -> "-"%char :: b :: r = d ++ name -> match name with
      | [] => True
      | c :: _ => match (if ceqb c "-" || ceqb c "=" then BadFlag else let (n, v) := name_value name in FlagArg n v) with FlagArg n v => exists d, dashes d /\ option_name n /\ "-"%char :: b :: r = d ++ n ++ match v with Some x => B"=" ++ x | None => [] end | BadFlag => True | _ => False end end).
    { intros d [|c t] D Es; [exact Logic.I|]. destruct (ceqb c "-" || ceqb c "=") eqn:X; [exact Logic.I|]. apply orb_false_iff in X. destruct X as (X1 & X2). cbn [name_value]. destruct (cut_equal t) as (n, v) eqn:C.
      destruct (cut_inv t n v C) as (N & ->). exists d. split; [exact D|]. split; [|exact Es]. split; [discriminate|]. split; [intros H; injection H as ->; discriminate X1|]. intros [I|I]; [subst c; discriminate X2|apply N, I]. }
    destruct (ceqb b "-") eqn:Eb.
    + apply ceqb_eq in Eb. subst b. specialize (K (B"--") r (or_intror eq_refl) eq_refl). destruct r as [|c r]; [reflexivity|]. destruct (ceqb c "-" || ceqb c "="); [exact Logic.I|]. destruct (name_value (c :: r)). exact K.
    + specialize (K (B"-") (b :: r) (or_introl eq_refl) eq_refl). cbv beta iota in K. destruct (ceqb b "-" || ceqb b "="); [exact Logic.I|]. destruct (name_value (b :: r)). exact K.
Qed.

(** ** Values *)
Fixpoint apply_settings (io : bytes -> option Z) (cur : list (bytes * fval)) (ss : list (bytes * bytes)) : option (list (bytes * fval)) :=
  match ss with
  | [] => Some cur
  | (n, v) :: ss' =>
      match find_flag cur n with
      | Some old => match set_value io old v with Some x => apply_settings io (put_flag cur n x) ss' | None => None end
      | None => None
      end
  end.
Definition bool_kind (d : fval) : Prop := exists b, d = FBool b.
Lemma set_kind io d v x : set_value io d v = Some x -> (bool_kind x <-> bool_kind d) /\ forall u, sensible io x u <-> sensible io d u.
Proof.
  destruct d as [s|b|z|l]; cbn [set_value].
  - intros H. injection H as <-. split; [split; intros (b & H); discriminate H|]. intros u. reflexivity.
  - destruct (go_bool v) as [b'|]; [|discriminate]. intros H. injection H as <-. split; [split; intros _; eexists; reflexivity|]. intros u. reflexivity.
  - destruct (io v) as [z'|]; [|discriminate]. intros H. injection H as <-. split; [split; intros (b & H); discriminate H|]. intros u. reflexivity.
  - intros H. injection H as <-. split; [split; intros (b & H); discriminate H|]. intros u. reflexivity.
Qed.
Lemma bool_in v : (go_bool v = Some true <-> In v true_texts) /\ (go_bool v = Some false <-> In v false_texts).
Proof.
  unfold go_bool. fold true_texts false_texts. destruct (bmem v true_texts) eqn:T.
  - apply bmem_In in T. split; [tauto|]. split; [discriminate|]. intros F. exfalso. revert T F. cbn. intros T F. repeat (destruct T as [<-|T]; [repeat (destruct F as [F|F]; [discriminate F|]); destruct F|]). destruct T.
  - assert (~ In v true_texts) by (intros I; apply bmem_In in I; congruence). destruct (bmem v false_texts) eqn:F.
    + apply bmem_In in F. split; [split; [discriminate|contradiction]|tauto].
    + assert (~ In v false_texts) by (intros I; apply bmem_In in I; congruence). split; (split; [discriminate|contradiction]).
Qed.
Lemma set_sensible io d v : sensible io d v <-> exists x, set_value io d v = Some x.
Proof.
  destruct d as [s|b|z|l]; cbn [sensible set_value].
  - split; [eauto|trivial].
  - destruct (bool_in v) as (T & F). rewrite <- T, <- F. destruct (go_bool v) as [[|]|]; cbn [option_map]; (split; [intros [H|H]; eauto; discriminate H|intros (x & H); try discriminate H; auto]).
  - destruct (io v); cbn [option_map]; (split; [intros H; eauto; contradiction|intros (x & H); congruence]).
  - split; [eauto|trivial].
Qed.
Lemma exists_last_or_nil {A} (l : list A) : l = [] \/ exists u w, l = u ++ [w].
Proof. induction l as [|w u _] using rev_ind; [left; reflexivity|right; eauto]. Qed.
Lemma worth_nothing io d y : worth io d [] y <-> y = d.
Proof.
  split; [|intros ->; constructor]. intros H. remember [] as q eqn:Q. destruct H as [d|s vals v|b vals v I|b vals v I|z vals v x I|l vals]; try (destruct vals; discriminate Q); [reflexivity|]. subst vals. rewrite app_nil_r. reflexivity.
Qed.
Lemma worth_last io d vals v y : worth io d (vals ++ [v]) y <-> match d with FList l => y = FList (l ++ vals ++ [v]) | _ => set_value io d v = Some y end.
Proof.
  destruct (bool_in v) as (T & F). split.
  - intros H. remember (vals ++ [v]) as q eqn:Q. destruct H as [d|s vals' v'|b vals' v' I|b vals' v' I|z vals' v' x I|l vals'].
    + destruct vals; discriminate Q.
    + apply app_inj_tail in Q. destruct Q as (_ & ->). reflexivity.
    + apply app_inj_tail in Q. destruct Q as (_ & ->). apply T in I. cbn [set_value]. rewrite I. reflexivity.
    + apply app_inj_tail in Q. destruct Q as (_ & ->). apply F in I. cbn [set_value]. rewrite I. reflexivity.
    + apply app_inj_tail in Q. destruct Q as (_ & ->). cbn [set_value]. rewrite I. reflexivity.
    + rewrite Q. reflexivity.
  - destruct d as [s|b|z|l]; cbn [set_value].
    + intros H. injection H as <-. constructor.
    + destruct (go_bool v) as [[|]|] eqn:G; [|..|discriminate]; intros H; injection H as <-; constructor; [apply T|apply F]; reflexivity.
    + destruct (io v) as [x|] eqn:G; [|discriminate]. intros H. injection H as <-. constructor. exact G.
    + intros ->. constructor.
Qed.
Lemma worth_step io d v x vals y : set_value io d v = Some x -> (worth io x vals y <-> worth io d (v :: vals) y).
Proof.
  intros S. destruct (exists_last_or_nil vals) as [-> |(u & w & ->)].
  - change [v] with ([] ++ [v]). rewrite worth_nothing, worth_last. destruct d as [s|b|z|l]; try (rewrite S; split; congruence). cbn [set_value] in S. injection S as <-. reflexivity.
  - rewrite app_comm_cons, !worth_last. destruct d as [s|b|z|l]; cbn [set_value] in *.
    + injection S as <-. reflexivity.
    + destruct (go_bool v); [|discriminate S]. injection S as <-. reflexivity.
    + destruct (io v); [|discriminate S]. injection S as <-. reflexivity.
    + injection S as <-. rewrite <- app_assoc. reflexivity.
Qed.
Lemma find_in vs n d : NoDup (map fst vs) -> (find_flag vs n = Some d <-> In (n, d) vs).
Proof.
  induction vs as [|[k e] vs IH]; intros N; [split; [discriminate|intros []]|]. cbn [map fst] in N. inversion N as [|? ? N1 N2]; subst. cbn [find_flag In]. destruct (beqb k n) eqn:E.
  - apply beqb_eq in E. subst k. split; [intros H; injection H as ->; auto|]. intros [H|H]; [congruence|]. exfalso. apply N1, in_map_iff. exists (n, d). auto.
  - rewrite IH by exact N2. split; [auto|]. intros [H|H]; [injection H as -> ->; rewrite beqb_refl in E; discriminate E|exact H].
Qed.
Lemma put_names vs n x : map fst (put_flag vs n x) = map fst vs.
Proof. induction vs as [|[k e] vs IH]; [reflexivity|]. cbn [put_flag]. destruct (beqb k n); [reflexivity|]. cbn [map fst]. rewrite IH. reflexivity. Qed.
Lemma find_put vs n x m : find_flag (put_flag vs n x) m = if beqb n m then option_map (fun _ => x) (find_flag vs m) else find_flag vs m.
Proof.
  induction vs as [|[k e] vs IH]; cbn [put_flag find_flag]; [destruct (beqb n m); reflexivity|]. destruct (beqb k n) eqn:E.
  - apply beqb_eq in E. subst k. cbn [find_flag]. destruct (beqb n m); reflexivity.
  - cbn [find_flag]. destruct (beqb k m) eqn:E2; [|exact IH]. apply beqb_eq in E2. subst k. destruct (beqb n m) eqn:E3; [|reflexivity]. apply beqb_eq in E3. subst m. rewrite beqb_refl in E. discriminate E.
Qed.
Lemma values_other k n v ss : k <> n -> values_for k ((n, v) :: ss) = values_for k ss.
Proof. intros N. unfold values_for. cbn [filter fst]. assert (beqb n k = false) as -> by (apply beqb_neq; congruence). reflexivity. Qed.
Lemma values_same n v ss : values_for n ((n, v) :: ss) = v :: values_for n ss.
Proof. unfold values_for. cbn [filter fst]. rewrite beqb_refl. reflexivity. Qed.
Lemma meant_other io cur n v ss vs : ~ In n (map fst cur) -> (meant io cur ss vs <-> meant io cur ((n, v) :: ss) vs).
Proof.
  unfold meant. intros N. revert vs. induction cur as [|[k e] cur IH]; intros vs; [split; intros H; inversion H; constructor|]. cbn [map fst In] in N.
  split; intros H; inversion H as [|? [k' y] ? vs' (E & W) H']; subst; cbn [fst snd] in *; (constructor; [cbn [fst snd]; split; [exact E|]; rewrite values_other in * by tauto; exact W|apply IH; [tauto|exact H']]).
Qed.
Lemma meant_put io n v x ss : forall cur d vs, NoDup (map fst cur) -> find_flag cur n = Some d -> set_value io d v = Some x -> (meant io (put_flag cur n x) ss vs <-> meant io cur ((n, v) :: ss) vs).
Proof.
  unfold meant. induction cur as [|[k e] cur IH]; intros d vs N F S; [discriminate F|]. cbn [map fst] in N. inversion N as [|? ? N1 N2]; subst. cbn [find_flag put_flag] in *. destruct (beqb k n) eqn:E.
  - apply beqb_eq in E. subst k. injection F as ->. split; intros H; inversion H as [|? [k' y] ? vs' (E & W) H']; subst; cbn [fst snd] in *; subst; (constructor; [cbn [fst snd]; split; [reflexivity|]|]).
    + rewrite values_same. apply (worth_step io d v x _ _ S), W.
    + apply (proj1 (meant_other io cur n v ss vs' N1)), H'.
    + rewrite values_same in W. apply (worth_step io d v x _ _ S), W.
    + apply (proj2 (meant_other io cur n v ss vs' N1)), H'.
  - split; intros H; inversion H as [|? [k' y] ? vs' (Ek & W) H']; subst; cbn [fst snd] in *; subst; (constructor; [cbn [fst snd]; split; [reflexivity|]; rewrite values_other in * by (intros ->; rewrite beqb_refl in E; discriminate E); exact W|apply (IH d vs' N2 F S), H']).
Qed.
Lemma meant_start io cur vs : meant io cur [] vs <-> vs = cur.
Proof.
  unfold meant. split.
  - intros H. induction H as [|[k e] [k' y] cur vs (E & W) H IH]; [reflexivity|]. cbn [fst snd] in *. subst. apply worth_nothing in W. subst y. reflexivity.
  - intros ->. induction cur as [|d cur IH]; constructor; [split; [reflexivity|constructor]|exact IH].
Qed.
Lemma known_put io n v x cur d ss : NoDup (map fst cur) -> find_flag cur n = Some d -> set_value io d v = Some x -> (known_options io (put_flag cur n x) ss <-> known_options io cur ss).
Proof.
  intros N F S. destruct (set_kind io d v x S) as (_ & K). assert (N' : NoDup (map fst (put_flag cur n x))) by (rewrite put_names; exact N).
  assert (H : forall m u, (exists e, In (m, e) (put_flag cur n x) /\ sensible io e u) <-> (exists e, In (m, e) cur /\ sensible io e u)).
  { intros m u. split; intros (e & I & Se).
    - apply (find_in _ _ _ N') in I. rewrite find_put in I. destruct (beqb n m) eqn:E.
      + apply beqb_eq in E. subst m. rewrite F in I. injection I as <-. exists d. split; [apply (find_in _ _ _ N), F|apply K, Se].
      + exists e. split; [apply (find_in _ _ _ N), I|exact Se].
    - apply (find_in _ _ _ N) in I. destruct (beqb n m) eqn:E.
      + apply beqb_eq in E. subst m. exists x. split; [apply (find_in _ _ _ N'); rewrite find_put, beqb_refl, F; reflexivity|]. apply K. congruence.
      + exists e. split; [apply (find_in _ _ _ N'); rewrite find_put, E; exact I|exact Se]. }
  unfold known_options. split; intros Q m u I; apply H, Q, I.
Qed.
Lemma apply_meant io : forall ss cur vs, NoDup (map fst cur) -> (apply_settings io cur ss = Some vs <-> known_options io cur ss /\ meant io cur ss vs).
Proof.
  induction ss as [|[n v] ss IH]; intros cur vs N; cbn [apply_settings].
  - rewrite meant_start. split; [intros H; injection H as ->; split; [intros n v []|reflexivity]|intros (_ & ->); reflexivity].
  - split.
    + destruct (find_flag cur n) as [d|] eqn:F; [|discriminate]. destruct (set_value io d v) as [x|] eqn:S; [|discriminate]. intros H. apply IH in H; [|rewrite put_names; exact N]. destruct H as (Kn & M). split.
      * intros m u [E|I]; [injection E as <- <-; exists d; split; [apply (find_in _ _ _ N), F|apply set_sensible; eauto]|]. apply (proj1 (known_put io n v x cur d ss N F S) Kn), I.
      * apply (meant_put io n v x ss cur d vs N F S), M.
    + intros (Kn & M). destruct (Kn n v (or_introl eq_refl)) as (d & I & Se). apply (find_in _ _ _ N) in I. apply set_sensible in Se. destruct Se as (x & S). rewrite I, S. apply IH; [rewrite put_names; exact N|]. split.
      * apply (known_put io n v x cur d ss N I S). intros m u J. apply Kn. right. exact J.
      * apply (meant_put io n v x ss cur d vs N I S), M.
Qed.

(** ** Lines *)
Definition switches (sw : bytes -> Prop) (cur : list (bytes * fval)) : Prop := forall n d, find_flag cur n = Some d -> (sw n <-> bool_kind d).
Lemma switches_put io sw cur n d v x : switches sw cur -> find_flag cur n = Some d -> set_value io d v = Some x -> switches sw (put_flag cur n x).
Proof.
  intros H F S m e E. rewrite find_put in E. destruct (beqb n m) eqn:B; [|apply H, E]. apply beqb_eq in B. subst m. rewrite F in E. injection E as <-. rewrite (H n d F). symmetry. apply (set_kind io d v x S).
Qed.
Definition continue io cur old n v args := match set_value io old v with Some x => parse_flags io (put_flag cur n x) args | None => Wrong end.
Lemma parse_step io cur s args n given old : argument_of s = FlagArg n given -> find_flag cur n = Some old ->
  parse_flags io cur (s :: args) = match old, given with
    | FBool _, None => continue io cur old n (B"true") args
    | _, Some v => continue io cur old n v args
    | _, None => match args with [] => Wrong | v :: args' => continue io cur old n v args' end end.
Proof. intros A F. cbn [parse_flags]. rewrite A, F. unfold continue. destruct old, given; reflexivity. Qed.
Lemma line_parsed io sw : forall ss files w, line sw ss files w -> forall cur vs, switches sw cur -> apply_settings io cur ss = Some vs -> parse_flags io cur w = Done (vs, files).
Proof.
  intros ss files w H. induction H as [|f files L|files|n v w ss files r W H IH]; intros cur vs Sw A.
  - injection A as ->. reflexivity.
  - injection A as ->. cbn [parse_flags]. rewrite (argument_file f L). reflexivity.
  - injection A as ->. reflexivity.
  - cbn [apply_settings] in A. destruct (find_flag cur n) as [old|] eqn:F; [|discriminate A]. destruct (set_value io old v) as [x|] eqn:S; [|discriminate A].
    assert (C : continue io cur old n v r = Done (vs, files)) by (unfold continue; rewrite S; apply IH; [apply (switches_put io sw cur n old v x Sw F S)|exact A]).
    destruct W as [d n v D N|d n v D N B|d n D N B]; cbn [app].
    + rewrite (parse_step io cur _ r n (Some v) old (argument_equal d n v D N) F). destruct old; exact C.
    + rewrite (parse_step io cur _ (v :: r) n None old (argument_alone d n D N) F). destruct old as [s|b|z|l]; try exact C. destruct B. apply (Sw n _ F). exists b. reflexivity.
    + rewrite (parse_step io cur _ r n None old (argument_alone d n D N) F). apply (Sw n _ F) in B. destruct B as (b & ->). exact C.
Qed.
Lemma parsed_line io sw : forall k w cur vs files, List.length w <= k -> switches sw cur -> parse_flags io cur w = Done (vs, files) -> exists ss, line sw ss files w /\ apply_settings io cur ss = Some vs.
Proof.
  induction k as [|k IH]; intros [|s args] cur vs files L Sw P; try (cbn in L; lia); try (injection P as <- <-; exists []; split; [constructor|reflexivity]).
  pose proof (argument_inv s) as A. destruct (argument_of s) as [| | |n given] eqn:E.
  - cbn [parse_flags] in P. rewrite E in P. injection P as <- <-. exists []. split; [constructor; exact A|reflexivity].
  - cbn [parse_flags] in P. rewrite E in P. injection P as <- <-. subst s. exists []. split; [constructor|reflexivity].
  - cbn [parse_flags] in P. rewrite E in P. discriminate P.
  - destruct (find_flag cur n) as [old|] eqn:F; [|cbn [parse_flags] in P; rewrite E, F in P; destruct (beqb n (B"help") || beqb n (B"h")); discriminate P].
    destruct A as (d & D & N & ->). rewrite (parse_step io cur _ args n given old E F) in P.
    assert (C : forall v w r, written sw n v w -> List.length r <= k -> continue io cur old n v r = Done (vs, files) -> exists ss, line sw ss files (w ++ r) /\ apply_settings io cur ss = Some vs).
    { intros v w r W Lr Q. unfold continue in Q. destruct (set_value io old v) as [x|] eqn:S; [|discriminate Q]. destruct (IH r _ _ _ Lr (switches_put io sw cur n old v x Sw F S) Q) as (ss & H1 & H2).
      exists ((n, v) :: ss). split; [constructor; assumption|]. cbn [apply_settings]. rewrite F, S. exact H2. }
    destruct given as [v|].
    + assert (P' : continue io cur old n v args = Done (vs, files)) by (destruct old; exact P). apply (C v [d ++ n ++ B"=" ++ v] args); [constructor; assumption|cbn in L; lia|exact P'].
    + rewrite app_nil_r. destruct (Sw n old F) as (S1 & S2). assert (B : bool_kind old \/ ~ bool_kind old) by (destruct old; [right|left|right|right]; try (intros (b' & H); discriminate H); eexists; reflexivity).
      destruct B as [(b & ->)|B].
      * apply (C (B"true") [d ++ n] args); [constructor; [exact D|exact N|apply S2; exists b; reflexivity]|cbn in L; lia|exact P].
      * destruct args as [|v args]; [destruct old; try discriminate P; destruct B; eexists; reflexivity|].
        assert (P' : continue io cur old n v args = Done (vs, files)) by (destruct old; try exact P; destruct B; eexists; reflexivity).
        apply (C v [d ++ n; v] args); [constructor; [exact D|exact N|tauto]|cbn in L; lia|exact P'].
Qed.
Lemma defs_switches defs : NoDup (map fst defs) -> switches (is_switch defs) defs.
Proof.
  intros N n d F. split.
  - intros (b & I). apply (find_in _ _ _ N) in I. exists b. congruence.
  - intros (b & ->). exists b. apply (find_in _ _ _ N), F.
Qed.
(** Exactly the lines whose options are known and have sensible values are accepted, with the values that were meant. *)
Lemma parse_exact io defs w vs files : NoDup (map fst defs) ->
  (parse_flags io defs w = Done (vs, files) <-> exists ss, line (is_switch defs) ss files w /\ known_options io defs ss /\ meant io defs ss vs).
Proof.
  intros N. split.
  - intros P. destruct (parsed_line io (is_switch defs) _ w defs vs files (le_n _) (defs_switches defs N) P) as (ss & L & A). exists ss. split; [exact L|]. apply apply_meant; assumption.
  - intros (ss & L & Kn & M). apply (line_parsed io (is_switch defs) ss files w L); [apply defs_switches, N|]. apply apply_meant; auto.
Qed.
