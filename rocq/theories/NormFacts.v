(** Proofs about column type and default normalisation (ddl/ddl.go:756-914). *)
From Verif Require Import GoStr GoStrFacts ModelDdl TrimFacts.
From Coq Require Import ZifyBool ZifyNat.

(** ** Panics *)
Lemma cut_byte_None_iff c s : cut_byte c s = None <-> ~ In c s.
Proof.
  induction s as [|x s IH]; cbn; [tauto|].
  destruct (ceqb_spec x c) as [->|Hn]; [split; [discriminate|intros H; exfalso; apply H; auto]|].
  destruct (cut_byte c s) as [[a b]|]; split; try discriminate.
  - intros H. exfalso. apply H. right.
    destruct IH as [_ IH]. destruct (in_dec ascii_dec c s) as [Hi|Hi]; [exact Hi|].
    specialize (IH Hi). discriminate.
  - intros _ [E|Hi]; [congruence|]. apply IH; auto.
  - reflexivity.
Qed.

Lemma cut_last_None_iff c s : cut_last c s = None <-> ~ In c s.
Proof.
  unfold cut_last. pose proof (cut_byte_None_iff c (rev s)) as H.
  rewrite <- in_rev in H. destruct (cut_byte c (rev s)) as [[a b]|]; [|exact H].
  split; [discriminate|]. intros Hn. apply H in Hn. discriminate.
Qed.

Lemma upper_trim_In c s : is_letter c = false -> is_space c = false ->
  In c (to_upper (trim_space s)) <-> In c s.
Proof. intros H1 H2. rewrite In_upper, In_trim_space by assumption. reflexivity. Qed.

Lemma split_type_panic s : split_type s = Panic <-> ~ In "("%char s /\ In ")"%char s.
Proof.
  unfold split_type.
  rewrite <- (upper_trim_In "("%char s), <- (upper_trim_In ")"%char s) by reflexivity.
  set (ct := to_upper (trim_space s)). clearbody ct.
  destruct (cut_byte "("%char ct) as [[a b]|] eqn:E1.
  - split.
    + destruct (cut_last ")"%char b) as [[x y]|]; [|discriminate].
      destruct (cut_byte ","%char (trim_space x)) as [[? ?]|]; discriminate.
    + intros [H _]. apply cut_byte_None_iff in H. congruence.
  - apply cut_byte_None_iff in E1. destruct (cut_last ")"%char ct) as [[x y]|] eqn:E2.
    + split; [|reflexivity]. intros _. split; [exact E1|].
      destruct (in_dec ascii_dec ")"%char ct) as [H|H]; [exact H|].
      apply cut_last_None_iff in H. congruence.
    + apply cut_last_None_iff in E2. split; [discriminate|]. tauto.
Qed.

Lemma split_type_no_err s : split_type s <> Err.
Proof.
  unfold split_type. destruct (cut_byte _ _) as [[a b]|].
  - destruct (cut_last _ b) as [[x y]|]; [|discriminate].
    destruct (cut_byte _ (trim_space x)) as [[? ?]|]; discriminate.
  - destruct (cut_last _ _) as [[x y]|]; discriminate.
Qed.

Lemma normalize_type_panic d s :
  normalize_column_type d s = Panic <-> ~ In "("%char s /\ In ")"%char s.
Proof.
  rewrite <- split_type_panic. unfold normalize_column_type.
  destruct (split_type s) as [[[[? ?] ?] ?]| |]; split; congruence.
Qed.

Lemma normalize_type_total d s :
  ~ (~ In "("%char s /\ In ")"%char s) -> exists r, normalize_column_type d s = Ok r.
Proof.
  intros H. rewrite <- split_type_panic in H. pose proof (split_type_no_err s) as H'.
  unfold normalize_column_type. destruct (split_type s) as [[[[? ?] ?] ?]| |]; try congruence.
  eexists. reflexivity.
Qed.

(** ** Stability of types *)
(** A type with its arguments. *)
Definition render (t a1 a2 : bytes) : bytes :=
  match a1, a2 with
  | [], [] => t
  | _, [] => t ++ B"(" ++ a1 ++ B")"
  | _, _ => t ++ B"(" ++ a1 ++ B"," ++ a2 ++ B")"
  end.

(** What split_type guarantees about its result. *)
Lemma split_type_shape s t a1 a2 sfx :
  split_type s = Ok (t, a1, a2, sfx) ->
  upper t /\ trimmed t /\ upper a1 /\ trimmed a1 /\ upper a2 /\ trimmed a2
  /\ ~ In ","%char a1 /\ (~ In "("%char t \/ (a1 = [] /\ a2 = []))
  /\ exists x y, to_upper s = x ++ t ++ y.
Proof.
  unfold split_type.
  assert (Hu : upper (to_upper (trim_space s))) by apply upper_to_upper.
  assert (Ht : trimmed (to_upper (trim_space s))) by (apply trimmed_upper, trim_space_trimmed).
  assert (Hsub : exists x y, to_upper s = x ++ to_upper (trim_space s) ++ y).
  { destruct (trim_space_sub s) as (x & y & E & _).
    exists (to_upper x), (to_upper y). rewrite <- !to_upper_app. f_equal. exact E. }
  set (ct := to_upper (trim_space s)) in *. clearbody ct.
  assert (Hnil : upper [] /\ trimmed []) by (split; [reflexivity | split; exact I]).
  assert (Hplain : Ok (ct, [], [], []) = Ok (t, a1, a2, sfx) ->
    upper t /\ trimmed t /\ upper a1 /\ trimmed a1 /\ upper a2 /\ trimmed a2
    /\ ~ In ","%char a1 /\ (~ In "("%char t \/ (a1 = [] /\ a2 = []))
    /\ exists x y, to_upper s = x ++ t ++ y).
  { intros [= <- <- <- <-]. destruct Hnil as [Hn1 Hn2].
    repeat (split; [first [assumption | (intros []) | (right; split; reflexivity)]|]). exact Hsub. }
  destruct (cut_byte "("%char ct) as [[base after]|] eqn:E1.
  - destruct (cut_last ")"%char after) as [[args suffix]|] eqn:E2; [|exact Hplain].
    destruct (cut_byte_Some _ _ _ _ E1) as [Ect Hnb]. 
    assert (Hua : upper base /\ upper after).
    { rewrite Ect in Hu. apply upper_app_inv in Hu as [H1 H2]. split; [exact H1|].
      change ("("%char :: after) with (["("%char] ++ after) in H2. apply upper_app_inv in H2. tauto. }
    assert (Hargs : upper args).
    { unfold cut_last in E2. destruct (cut_byte ")"%char (rev after)) as [[u v]|] eqn:E3; [|discriminate].
      injection E2 as <- <-. apply cut_byte_Some in E3 as [E3 _].
      assert (after = rev v ++ ")"%char :: rev u).
      { rewrite <- (rev_involutive after), E3, rev_app_distr. cbn. rewrite <- app_assoc. reflexivity. }
      destruct Hua as [_ Hua]. rewrite H in Hua. apply upper_app_inv in Hua. tauto. }
    assert (Hut : upper (trim_space args)) by (apply upper_trim; exact Hargs).
    assert (Hbt : exists x y, to_upper s = x ++ trim_space base ++ y).
    { destruct Hsub as (x & y & Es). destruct (trim_space_sub base) as (p & q & Eb & _).
      exists (x ++ p), (q ++ "("%char :: after ++ y). rewrite Es, Ect, Eb at 1.
      rewrite <- !app_assoc. cbn [app]. reflexivity. }
    assert (Hnt : ~ In "("%char (trim_space base)).
    { rewrite In_trim_space by reflexivity. exact Hnb. }
    destruct (cut_byte ","%char (trim_space args)) as [[u v]|] eqn:E3; intros [= <- <- <- <-].
    + apply cut_byte_Some in E3 as [E3 Hnc]. rewrite E3 in Hut.
      apply upper_app_inv in Hut as [Hu1 Hu2].
      change (","%char :: v) with ([","%char] ++ v) in Hu2. apply upper_app_inv in Hu2 as [_ Hu2].
      repeat split; try (apply upper_trim; tauto); try apply trim_space_trimmed; try assumption.
      * rewrite In_trim_space by reflexivity. exact Hnc.
      * left. exact Hnt.
    + apply cut_byte_None_iff in E3.
      repeat split; try (apply upper_trim; tauto); try apply trim_space_trimmed; try assumption.
      * rewrite trim_space_idem. exact E3.
      * left. exact Hnt.
  - destruct (cut_last ")"%char ct) as [[? ?]|]; [discriminate|exact Hplain].
Qed.

Lemma cut_last_app c a b : ~ In c b -> cut_last c (a ++ c :: b) = Some (a, b).
Proof.
  intros H. unfold cut_last. rewrite rev_app_distr. cbn [rev]. rewrite <- app_assoc. cbn [app].
  rewrite cut_byte_app by (rewrite <- in_rev; exact H). rewrite !rev_involutive. reflexivity.
Qed.

Lemma clean_app a b : clean a -> (a = [] -> clean b) -> clean (a ++ b).
Proof. destruct a; cbn; auto. Qed.

Lemma split_type_plain t :
  upper t -> trimmed t -> ~ In ")"%char t -> split_type t = Ok (t, [], [], []).
Proof.
  intros Hu Ht Hn. unfold split_type. rewrite (trim_space_id t Ht), Hu.
  destruct (cut_byte "("%char t) as [[a b]|] eqn:E.
  - apply cut_byte_Some in E as [E _].
    assert (cut_last ")"%char b = None) as ->.
    { apply cut_last_None_iff. intros H. apply Hn. rewrite E. apply in_or_app. right. right. exact H. }
    reflexivity.
  - assert (cut_last ")"%char t = None) as -> by (apply cut_last_None_iff; exact Hn). reflexivity.
Qed.

Lemma split_type_args t args a1 a2 :
  upper t -> trimmed t -> ~ In "("%char t -> upper args -> trimmed args -> args <> [] ->
  match cut_byte ","%char args with
  | Some (a, b) => (trim_space a, trim_space b)
  | None => (trim_space args, [])
  end = (a1, a2) ->
  split_type (t ++ B"(" ++ args ++ B")") = Ok (t, a1, a2, []).
Proof.
  intros Hu Ht Hn Hua Hta Hne Hc. unfold split_type.
  assert (Htr : trimmed (t ++ B"(" ++ args ++ B")")).
  { split.
    - apply clean_app; [apply Ht|]. intros _. reflexivity.
    - rewrite !app_assoc, rev_app_distr. reflexivity. }
  assert (Hup : upper (t ++ B"(" ++ args ++ B")")).
  { apply upper_app; [exact Hu|]. apply upper_app; [reflexivity|]. apply upper_app; [exact Hua|reflexivity]. }
  rewrite (trim_space_id _ Htr), Hup.
  change (t ++ B"(" ++ args ++ B")") with (t ++ "("%char :: (args ++ [")"%char])).
  rewrite cut_byte_app by exact Hn.
  change [")"%char] with (")"%char :: []). rewrite cut_last_app by (intros []).
  rewrite (trim_space_id args Hta), Hc, (trim_space_id t Ht). reflexivity.
Qed.

Lemma split_type_render t a1 a2 :
  upper t -> trimmed t -> upper a1 -> trimmed a1 -> upper a2 -> trimmed a2 ->
  ~ In ","%char a1 -> (~ In "("%char t \/ (a1 = [] /\ a2 = [])) -> ~ In ")"%char t ->
  split_type (render t a1 a2) = Ok (t, a1, a2, []).
Proof.
  intros Hut Htt Hu1 Ht1 Hu2 Ht2 Hc Hp Hn. unfold render.
  destruct a1 as [|c1 a1], a2 as [|c2 a2].
  - apply split_type_plain; assumption.
  - destruct Hp as [Hp|[_ ?]]; [|discriminate].
    change (t ++ B"(" ++ [] ++ B"," ++ (c2 :: a2) ++ B")") with (t ++ B"(" ++ (","%char :: c2 :: a2) ++ B")").
    apply split_type_args; trivial.
    + apply (upper_app (B",") (c2 :: a2)); [reflexivity|exact Hu2].
    + split; [reflexivity|]. destruct Ht2 as [_ H]. cbn [rev]. cbn [rev] in H.
      apply clean_app; [exact H|]. intros E. destruct (rev a2); discriminate.
    + discriminate.
    + exact (f_equal (pair (@nil ascii)) (trim_space_id (c2 :: a2) Ht2)).
  - destruct Hp as [Hp|[? _]]; [|discriminate].
    apply split_type_args; trivial; [discriminate|].
    apply cut_byte_None_iff in Hc. rewrite Hc, (trim_space_id _ Ht1). reflexivity.
  - destruct Hp as [Hp|[? _]]; [|discriminate].
    replace (t ++ B"(" ++ (c1 :: a1) ++ B"," ++ (c2 :: a2) ++ B")")
      with (t ++ B"(" ++ ((c1 :: a1) ++ ","%char :: c2 :: a2) ++ B")")
      by (rewrite <- !app_assoc; reflexivity).
    apply split_type_args; trivial.
    + apply upper_app; [exact Hu1|]. apply (upper_app (B",") (c2 :: a2)); [reflexivity|exact Hu2].
    + split; [apply Ht1|]. rewrite rev_app_distr. destruct Ht2 as [_ H].
      cbn [rev] in *. rewrite <- app_assoc. apply clean_app; [apply clean_app|].
      * destruct (rev a2); [exact I|exact H].
      * intros E. rewrite E in H. exact H.
      * intros E. destruct (rev a2); discriminate.
    + discriminate.
    + rewrite cut_byte_app by exact Hc. rewrite (trim_space_id _ Ht1), (trim_space_id _ Ht2). reflexivity.
Qed.

(** *** Dialect maps *)
Ltac cases_one_of :=
  repeat match goal with
         | |- context [if one_of ?k ?l then _ else _] => let E := fresh "E" in destruct (one_of k l) eqn:E
         end.

Lemma ms_type_idem t : ms_type (ms_type t) = ms_type t.
Proof.
  unfold ms_type at 2 3. cases_one_of; try (vm_compute; reflexivity).
  unfold ms_type. rewrite E, E0, E1, E2, E3, E4. reflexivity.
Qed.

Lemma ms_type_or t : ms_type t = t \/ (upper (ms_type t) /\ trimmed (ms_type t) /\ ~ In "("%char (ms_type t) /\ ~ In ")"%char (ms_type t)).
Proof.
  unfold ms_type. cases_one_of; try (left; reflexivity); right;
    (split; [reflexivity|]; split; [split; reflexivity|]; split; cbn; intuition discriminate).
Qed.

Definition const_ok (t : bytes) : Prop :=
  upper t /\ trimmed t /\ ~ In "("%char t /\ ~ In ")"%char t /\ t <> [] /\ has_suffix t (B"[]") = false.

Lemma pg_type_or t s : pg_type t s = t \/ const_ok (pg_type t s).
Proof.
  unfold pg_type. cases_one_of; try (left; reflexivity);
    try (destruct (negb (beqb s []) && beqb (no_spaces s) (B"WITHTIMEZONE")); try (left; reflexivity));
    right; (split; [reflexivity|]; split; [split; reflexivity|];
            split; [cbn; intuition discriminate|]; split; [cbn; intuition discriminate|]; split;
            [discriminate|reflexivity]).
Qed.

Lemma pg_type_idem t s : pg_type (pg_type t s) [] = pg_type t s.
Proof.
  unfold pg_type at 2 3. cases_one_of; try (vm_compute; reflexivity).
  - destruct (negb (beqb s []) && beqb (no_spaces s) (B"WITHTIMEZONE")); [vm_compute; reflexivity|].
    unfold pg_type. rewrite E, E0, E1, E2, E3, E4, E5, E6, E7, E8, E9. reflexivity.
  - destruct (negb (beqb s []) && beqb (no_spaces s) (B"WITHTIMEZONE")); [vm_compute; reflexivity|].
    unfold pg_type. rewrite E, E0, E1, E2, E3, E4, E5, E6, E7, E8, E9, E10, E11, E12. reflexivity.
  - unfold pg_type. rewrite E, E0, E1, E2, E3, E4, E5, E6, E7, E8, E9, E10, E11, E12, E13, E14. reflexivity.
Qed.

(** The part of [my_type] between the treatment of UNSIGNED. *)
Definition my_core (t a1 a2 : bytes) : bytes * bytes * bytes :=
  let k := no_spaces t in
  if one_of k ["INTEGER"]%string then (B"INT", [], [])
  else if one_of k ["DEC"; "DECIMAL"]%string then (B"NUMERIC", a1, a2)
  else if one_of k ["BOOL"; "BOOLEAN"]%string then (B"TINYINT", B"1", [])
  else if one_of k ["TINYINT"]%string then (t, if beqb a1 (B"1") then a1 else [], [])
  else if one_of k ["SMALLINT"; "MEDIUMINT"; "INT"; "BIGINT"]%string then (t, [], [])
  else (t, a1, a2).

Lemma my_core_idem t a1 a2 t' a1' a2' :
  my_core t a1 a2 = (t', a1', a2') -> my_core t' a1' a2' = (t', a1', a2').
Proof.
  unfold my_core at 1. cases_one_of; intros [= <- <- <-]; try reflexivity.
  - unfold my_core. rewrite E, E0, E1, E2.
    change ["1"%char] with (B"1"). destruct (beqb a1 (B"1")) eqn:E4; cbv iota; rewrite ?E4; reflexivity.
  - unfold my_core. rewrite E, E0, E1, E2, E3. reflexivity.
  - unfold my_core. rewrite E, E0, E1, E2, E3. reflexivity.
Qed.

Lemma my_core_or t a1 a2 t' a1' a2' :
  my_core t a1 a2 = (t', a1', a2') ->
  (t' = t /\ (a1' = [] \/ a1' = a1) /\ (a2' = [] \/ a2' = a2)) \/
  ((const_ok t' /\ has_suffix t' (B" UNSIGNED") = false /\ has_suffix t' (B" SIGNED") = false) /\
   (a1' = [] \/ a1' = B"1" \/ a1' = a1) /\ (a2' = [] \/ a2' = a2)).
Proof.
  unfold my_core. cases_one_of; intros [= <- <- <-].
  all: try match goal with |- context [if ?b then ?x else []] => destruct b end.
  all: first [left; solve [split; [reflexivity|split; auto]]
             | right; split; [|split; auto];
               split;
               [split; [reflexivity|]; split; [split; reflexivity|];
                split; [cbn; intuition discriminate|]; split; [cbn; intuition discriminate|]; split;
                [discriminate|reflexivity]
               | split; reflexivity]].
Qed.

Lemma my_type_core t a1 a2 :
  my_type t a1 a2 =
  let uns := has_suffix t (B" UNSIGNED") in
  let t0 := if uns then trim_suffix t (B" UNSIGNED") else trim_suffix t (B" SIGNED") in
  let '(t', a1', a2') := my_core t0 a1 a2 in
  (if uns then t' ++ B" UNSIGNED" else t', a1', a2').
Proof. reflexivity. Qed.

Lemma contains_sub x t y p : contains (x ++ t ++ y) p = false -> contains t p = false.
Proof.
  assert (Hc : forall s p, contains s p = true <-> exists a b, s = a ++ p ++ b).
  { clear. intros s p. unfold contains. induction s as [|c s IH].
    - cbn. destruct (strip_prefix p []) as [r|] eqn:E.
      + apply strip_prefix_Some in E. split; [|reflexivity]. intros _. exists [], r. exact E.
      + split; [discriminate|]. intros (a & b & H). symmetry in H. apply app_eq_nil in H as [-> H].
        apply app_eq_nil in H as [-> ->]. discriminate.
    - cbn [cut]. destruct (strip_prefix p (c :: s)) as [r|] eqn:E.
      + apply strip_prefix_Some in E. split; [|reflexivity]. intros _. exists [], r. exact E.
      + destruct (cut p s) as [[u v]|].
        * split; [|reflexivity]. intros _. destruct IH as [IH _].
          destruct (IH eq_refl) as (a & b & ->). exists (c :: a), b. reflexivity.
        * split; [discriminate|]. intros ([|c' a] & b & H).
          -- cbn [app] in H. rewrite H, strip_prefix_app in E. discriminate.
          -- injection H as <- H. destruct IH as [_ IH]. apply IH. exists a, b. exact H. }
  intros H. destruct (contains t p) eqn:E; [|reflexivity].
  apply Hc in E as (a & b & ->). rewrite <- H. symmetry. apply Hc.
  exists (x ++ a), (b ++ y). rewrite <- !app_assoc. reflexivity.
Qed.

Lemma contains_suffix t p : contains t p = false -> has_suffix t p = false.
Proof.
  intros H. destruct (has_suffix t p) eqn:E; [|reflexivity].
  apply has_suffix_iff in E as [a ->].
  assert (Hx : contains (a ++ p ++ []) p = false) by (rewrite app_nil_r; exact H).
  apply contains_sub in Hx. unfold contains in Hx.
  destruct p as [|c p]; [discriminate|]. cbn [cut] in Hx.
  replace (strip_prefix (c :: p) (c :: p)) with (Some (@nil ascii)) in Hx; [discriminate|].
  symmetry. rewrite <- (app_nil_r (c :: p)) at 2. apply strip_prefix_app.
Qed.

Lemma trim_suffix_unsigned_app u p : trim_suffix (u ++ p) p = u.
Proof. apply trim_suffix_app. Qed.

Lemma Ok3_inj {A B C} (a a' : A) (b b' : B) (c c' : C) :
  Ok (a, b, c) = Ok (a', b', c') -> a = a' /\ b = b' /\ c = c'.
Proof. intros H. inversion H. auto. Qed.

(** *** Main stability result *)
Lemma normalize_type_stable d s t a1 a2 :
  normalize_column_type d s = Ok (t, a1, a2) ->
  ~ In ")"%char t ->
  (d = MySQL -> contains (to_upper s) (B" SIGNED") = false) ->
  normalize_column_type d (render t a1 a2) = Ok (t, a1, a2).
Proof.
  intros H Hn Hmy. unfold normalize_column_type in H.
  destruct (split_type s) as [[[[t0 b1] b2] sfx]| |] eqn:E; try discriminate.
  apply split_type_shape in E as (Hut & Htt & Hu1 & Ht1 & Hu2 & Ht2 & Hc & Hp & Hsub).
  assert (Hfinal : forall t', upper t' -> trimmed t' -> (~ In "("%char t' \/ a1 = [] /\ a2 = []) -> ~ In ")"%char t' ->
            upper a1 -> trimmed a1 -> upper a2 -> trimmed a2 -> ~ In ","%char a1 ->
            split_type (render t' a1 a2) = Ok (t', a1, a2, []))
    by (intros; apply split_type_render; assumption).
  unfold normalize_column_type. destruct d.
  - apply Ok3_inj in H as (<- & <- & <-). rewrite Hfinal by assumption. reflexivity.
  - destruct (has_suffix t0 (B"[]")) eqn:Es; apply Ok3_inj in H as (<- & <- & <-).
    + apply has_suffix_iff in Es as [u ->]. rewrite trim_suffix_app in *.
      assert (Hu : upper u) by (apply upper_app_inv in Hut; tauto).
      assert (Ht : upper (pg_type u sfx ++ B"[]") /\ trimmed (pg_type u sfx ++ B"[]")
                   /\ (~ In "("%char (pg_type u sfx ++ B"[]") \/ b1 = [] /\ b2 = [])).
      { destruct (pg_type_or u sfx) as [->|(H1 & H2 & H3 & H4 & H5 & H6)].
        - auto.
        - split; [apply upper_app; [exact H1|reflexivity]|]. split.
          + split; [apply clean_app; [apply H2|intros; congruence]|]. rewrite rev_app_distr. reflexivity.
          + left. intros Hi. apply in_app_or in Hi as [Hi|Hi]; [exact (H3 Hi)|].
            cbn in Hi. intuition discriminate. }
      destruct Ht as (Ht & Htr & Htp).
      rewrite Hfinal by assumption.
      assert (has_suffix (pg_type u sfx ++ B"[]") (B"[]") = true) as ->
        by (apply has_suffix_iff; eexists; reflexivity).
      rewrite trim_suffix_app, pg_type_idem. reflexivity.
    + assert (Ht : upper (pg_type t0 sfx) /\ trimmed (pg_type t0 sfx)
                   /\ (~ In "("%char (pg_type t0 sfx) \/ b1 = [] /\ b2 = [])
                   /\ has_suffix (pg_type t0 sfx) (B"[]") = false).
      { destruct (pg_type_or t0 sfx) as [->|(H1 & H2 & H3 & H4 & H5 & H6)]; auto. }
      destruct Ht as (Ht & Htr & Htp & Hts).
      rewrite Hfinal by assumption. rewrite Hts, pg_type_idem. reflexivity.
  - specialize (Hmy eq_refl). destruct Hsub as (x & y & Hsub). rewrite Hsub in Hmy.
    apply contains_sub, contains_suffix in Hmy.
    rewrite my_type_core in H. cbv zeta in H.
    rewrite (trim_suffix_none _ _ Hmy) in H.
    set (uns := has_suffix t0 (B" UNSIGNED")) in *.
    set (u := if uns then trim_suffix t0 (B" UNSIGNED") else t0) in *.
    destruct (my_core u b1 b2) as [[t' a1'] a2'] eqn:Ec.
    pose proof (my_core_idem _ _ _ _ _ _ Ec) as Hidem.
    apply my_core_or in Ec as Hcore.
    apply Ok3_inj in H as (Ht & <- & <-).
    assert (Hnil : upper [] /\ trimmed []) by (split; [reflexivity | split; exact I]).
    assert (H1 : upper (B"1") /\ trimmed (B"1") /\ ~ In ","%char (B"1"))
      by (split; [reflexivity|]; split; [split; reflexivity | cbn; intuition discriminate]).
    assert (Hargs : upper a1' /\ trimmed a1' /\ upper a2' /\ trimmed a2' /\ ~ In ","%char a1').
    { assert (Ha : (a1' = [] \/ a1' = B"1" \/ a1' = b1) /\ (a2' = [] \/ a2' = b2)) by tauto.
      destruct Ha as [Ha1 Ha2].
      assert (P1 : upper a1' /\ trimmed a1' /\ ~ In ","%char a1').
      { destruct Ha1 as [->|[->| ->]]; [split; [|split]; [apply Hnil|apply Hnil|intros []]
          | exact H1 | auto]. }
      assert (P2 : upper a2' /\ trimmed a2') by (destruct Ha2 as [->| ->]; auto).
      tauto. }
    destruct Hargs as (Q1 & Q2 & Q3 & Q4 & Q5).
    assert (Ht0 : t0 = if uns then u ++ B" UNSIGNED" else u).
    { subst u. unfold uns. destruct (has_suffix t0 (B" UNSIGNED")) eqn:Eu; [|reflexivity].
      apply has_suffix_iff in Eu as [w ->]. rewrite trim_suffix_app. reflexivity. }
    assert (Huns : has_suffix t0 (B" UNSIGNED") = uns) by reflexivity.
    clearbody u. clearbody uns.
    assert (Hkey : upper t /\ trimmed t /\ (~ In "("%char t \/ a1' = [] /\ a2' = [])
                   /\ has_suffix t (B" UNSIGNED") = uns /\ has_suffix t (B" SIGNED") = false).
    { destruct Hcore as [(E1 & E2 & E3)|[[(K1 & K2 & K3 & K4 & K5 & K6) [K7 K8]] _]].
      - assert (Et : t0 = t) by (rewrite Ht0, <- Ht, E1; reflexivity). clear Ht0. subst t0.
        split; [exact Hut|]. split; [exact Htt|]. split; [|split; [exact Huns|exact Hmy]].
        destruct Hp as [Hp|[-> ->]]; [left; exact Hp|]. right. intuition.
      - subst t. destruct uns.
        + split; [apply upper_app; [exact K1|reflexivity]|]. split.
          * split; [apply clean_app; [apply K2|congruence]|]. rewrite rev_app_distr. reflexivity.
          * split; [left; intros Hi; apply in_app_or in Hi as [Hi|Hi];
                    [exact (K3 Hi) | cbn in Hi; intuition discriminate]|].
            split; [apply has_suffix_iff; eexists; reflexivity|].
            unfold has_suffix. rewrite rev_app_distr. unfold has_prefix.
            change (rev (B" UNSIGNED")) with (B"DENGISNU "). reflexivity.
        + split; [exact K1|]. split; [exact K2|]. split; [left; exact K3|]. split; assumption. }
    destruct Hkey as (G1 & G2 & G3 & G4 & G5).
    rewrite Hfinal by assumption. rewrite my_type_core. cbv zeta. rewrite G4.
    rewrite (trim_suffix_none _ _ G5).
    assert ((if uns then trim_suffix t (B" UNSIGNED") else t) = t') as ->
      by (rewrite <- Ht; destruct uns; [apply trim_suffix_app|reflexivity]).
    rewrite Hidem, Ht. reflexivity.
  - apply Ok3_inj in H as (<- & <- & <-).
    assert (Ht : upper (ms_type t0) /\ trimmed (ms_type t0) /\ (~ In "("%char (ms_type t0) \/ b1 = [] /\ b2 = [])).
    { destruct (ms_type_or t0) as [->|(H1 & H2 & H3 & H4)]; auto. }
    destruct Ht as (Ht & Htr & Htp). rewrite Hfinal by assumption. rewrite ms_type_idem. reflexivity.
  - apply Ok3_inj in H as (<- & <- & <-). rewrite Hfinal by assumption. reflexivity.
Qed.

(** ** Defaults *)
Lemma normalize_default_stable d s :
  (d = Postgres -> contains s (B"::") = false) ->
  normalize_column_default d (normalize_column_default d s) = normalize_column_default d s.
Proof.
  intros Hpg. unfold normalize_column_default at 2 3. cbv zeta.
  pose proof (trim_space_idem s) as Hi. pose proof (trim_space_trimmed s) as Ht.
  assert (Hc : d = Postgres -> cut (B"::") (trim_space s) = None).
  { intros ->. specialize (Hpg eq_refl). destruct (trim_space_sub s) as (x & y & E & _).
    rewrite E in Hpg. apply contains_sub in Hpg. unfold contains in Hpg.
    destruct (cut (B"::") (trim_space s)); [discriminate|reflexivity]. }
  set (cd := trim_space s) in *. clearbody cd. destruct cd as [|c0 cd0]; [reflexivity|].
  set (cd := c0 :: cd0) in *.
  assert (Hne : cd <> []) by discriminate. clearbody cd.
  destruct (one_of (to_upper cd) ["1"; "TRUE"]%string) eqn:E1; [destruct d; vm_compute; reflexivity|].
  destruct (one_of (to_upper cd) ["0"; "FALSE"]%string) eqn:E2; [destruct d; vm_compute; reflexivity|].
  assert (Hid : forall cd', trim_space cd' = cd' -> cd' <> [] -> to_upper cd' = to_upper cd ->
     normalize_column_default d cd' =
      (if one_of (to_upper cd) ["CURRENT_DATE"; "CURRENT_TIME"; "CURRENT_TIMESTAMP"; "NULL"]%string
       then to_upper cd
       else match d with
        | SQLite =>
            if one_of (to_upper cd) ["DATETIME()"; "DATETIME('NOW')"]%string then B"CURRENT_TIMESTAMP" else cd'
        | Postgres =>
            if one_of (to_upper cd) ["NOW()"]%string then B"CURRENT_TIMESTAMP"
            else match cut (B"::") cd' with Some (before, _) => before | None => cd' end
        | MySQL => if one_of (to_upper cd) ["NOW()"]%string then B"CURRENT_TIMESTAMP" else cd'
        | SQLServer => if one_of (to_upper cd) ["GETDATE()"]%string then B"CURRENT_TIMESTAMP" else cd'
        | Other => cd'
        end)).
  { intros cd' P1 P2 P3. unfold normalize_column_default. cbv zeta. rewrite P1, P3, E1, E2.
    destruct cd' as [|? ?]; [congruence|]. reflexivity. }
  destruct (one_of (to_upper cd) ["CURRENT_DATE"; "CURRENT_TIME"; "CURRENT_TIMESTAMP"; "NULL"]%string) eqn:E3.
  { rewrite Hid, ?E3; [reflexivity| | |apply to_upper_idem].
    - apply trim_space_id, trimmed_upper. exact Ht.
    - destruct cd; [congruence|discriminate]. }
  assert (Hsame : normalize_column_default d cd = cd \/ normalize_column_default d cd = B"CURRENT_TIMESTAMP").
  { rewrite Hid by auto. destruct d; try (left; reflexivity).
    - destruct (one_of (to_upper cd) ["DATETIME()"; "DATETIME('NOW')"]%string); auto.
    - destruct (one_of (to_upper cd) ["NOW()"]%string); auto. rewrite Hc by reflexivity. auto.
    - destruct (one_of (to_upper cd) ["NOW()"]%string); auto.
    - destruct (one_of (to_upper cd) ["GETDATE()"]%string); auto. }
  pose proof (Hid cd Hi Hne eq_refl) as Hcd. rewrite <- Hcd.
  destruct Hsame as [E|E]; rewrite E; [exact E|]. destruct d; vm_compute; reflexivity.
Qed.
