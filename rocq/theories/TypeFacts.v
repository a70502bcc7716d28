(** Type synonyms. *)
From Verif Require Import GoStr GoStrFacts ModelDdl TrimFacts NormFacts SpecTypes.

Lemma squeeze_no_spaces s : squeeze s = no_spaces s.
Proof.
  unfold squeeze, no_spaces, replace_byte. induction s as [|c s IH]; [reflexivity|].
  cbn [filter flat_map]. destruct (ceqb c SPACE); cbn [negb app]; rewrite IH; reflexivity.
Qed.

Lemma one_of_In s l : one_of s l = true -> In s (map B l).
Proof.
  unfold one_of, bmem. intros H. apply existsb_exists in H as (x & Hx & E).
  apply beqb_eq in E. subst. exact Hx.
Qed.

(** A bare type has no arguments. *)
Lemma bare_split d s : bare d s -> split_type s = Ok (type_text s, [], [], []).
Proof.
  intros (H1 & H2 & _). unfold split_type, type_text.
  rewrite <- (upper_trim_In "("%char s) in H1 by reflexivity.
  rewrite <- (upper_trim_In ")"%char s) in H2 by reflexivity.
  apply cut_byte_None_iff in H1. apply cut_last_None_iff in H2. rewrite H1, H2. reflexivity.
Qed.

Definition base_map (d : dialect) (t : bytes) : bytes * bytes :=
  match d with
  | Postgres => (pg_type t [], [])
  | MySQL => let '(t', a, _) := my_core t [] [] in (t', a)
  | SQLServer => (ms_type t, [])
  | _ => (t, [])
  end.

Lemma my_core_second t : exists t' a, my_core t [] [] = (t', a, []).
Proof. unfold my_core. cases_one_of; eauto. Qed.

Lemma bare_normalize d s :
  bare d s ->
  normalize_column_type d s = Ok (fst (base_map d (type_text s)), snd (base_map d (type_text s)), []).
Proof.
  intros Hb. unfold normalize_column_type. rewrite (bare_split d s Hb).
  destruct Hb as (H1 & H2 & H3 & H4).
  assert (Hsub : exists x y, to_upper s = x ++ type_text s ++ y).
  { destruct (trim_space_sub s) as (x & y & E & _). exists (to_upper x), (to_upper y).
    unfold type_text. rewrite <- !to_upper_app. f_equal. exact E. }
  destruct d; try reflexivity.
  - assert (has_suffix (type_text s) (B"[]") = false) as ->; [|reflexivity].
    destruct (has_suffix (type_text s) (B"[]")) eqn:E; [|reflexivity].
    exfalso. apply H3. apply has_suffix_iff in E as [r E].
    rewrite <- (upper_trim_In "["%char s) by reflexivity.
    unfold type_text in E. rewrite E. apply in_or_app. right. left. reflexivity.
  - specialize (H4 eq_refl). destruct Hsub as (x & y & E). rewrite E in H4. apply contains_sub in H4.
    rewrite my_type_core. cbv zeta.
    assert (Hs : forall p, has_suffix (type_text s) (p ++ B"SIGNED") = false).
    { intros p. destruct (has_suffix (type_text s) (p ++ B"SIGNED")) eqn:Es; [|reflexivity].
      apply has_suffix_iff in Es as [r Es]. rewrite Es in H4.
      assert (H5 : contains ((r ++ p) ++ B"SIGNED" ++ []) (B"SIGNED") = false)
        by (rewrite app_nil_r, <- app_assoc; exact H4).
      apply contains_sub in H5. discriminate. }
    pose proof (Hs (B" UN")) as Hu. change (B" UN" ++ B"SIGNED") with (B" UNSIGNED") in Hu.
    pose proof (Hs (B" ")) as Hsg. change (B" " ++ B"SIGNED") with (B" SIGNED") in Hsg.
    rewrite Hu, (trim_suffix_none _ _ Hsg). unfold base_map.
    destruct (my_core_second (type_text s)) as (t' & a & ->). reflexivity.
Qed.

(** The class of a normal form; BOOL is the only bare MySQL type with an argument. *)
Definition class_of (d : dialect) (v : bytes * bytes) : list bytes :=
  let name := match snd v with [] => fst v | _ => B"BOOL" end in
  match find (fun c => bmem (squeeze name) c) (type_classes d) with Some c => c | None => [] end.

Fixpoint beqbs (a b : list bytes) : bool :=
  match a, b with
  | [], [] => true
  | x :: a', y :: b' => beqb x y && beqbs a' b'
  | _, _ => false
  end.

Lemma beqbs_eq a b : beqbs a b = true -> a = b.
Proof.
  revert b; induction a as [|x a IH]; intros [|y b] E; try discriminate; [reflexivity|].
  apply andb_true_iff in E as [E1 E2]. apply beqb_eq in E1. f_equal; [exact E1|]. apply IH. exact E2.
Qed.

Lemma base_map_class d t :
  base_map d t = (t, [])
  \/ (In (class_of d (base_map d t)) (type_classes d)
      /\ In (squeeze t) (class_of d (base_map d t))
      /\ (snd (base_map d t) = [] -> In (squeeze (fst (base_map d t))) (class_of d (base_map d t)))).
Proof.
  rewrite squeeze_no_spaces.
  assert (Hfin : forall v l, one_of (no_spaces t) l = true ->
            (forallb (fun x => bmem x (class_of d v)) (map B l) = true) ->
            (match snd v with [] => bmem (squeeze (fst v)) (class_of d v) | _ => true end) = true ->
            existsb (beqbs (class_of d v)) (type_classes d) = true ->
            In (class_of d v) (type_classes d) /\ In (no_spaces t) (class_of d v)
            /\ (snd v = [] -> In (squeeze (fst v)) (class_of d v))).
  { intros v l H1 H2 H3 H4. apply one_of_In in H1.
    assert (Hbm : forall x c, bmem x c = true -> In x c).
    { intros x c H. unfold bmem in H. apply existsb_exists in H as (y & Hy & E).
      apply beqb_eq in E. subst. exact Hy. }
    split.
    - apply existsb_exists in H4 as (c & Hc & E). apply beqbs_eq in E. rewrite E. exact Hc.
    - split; [rewrite forallb_forall in H2; apply Hbm, H2, H1|]. intros E. rewrite E in H3. apply Hbm. exact H3. }
  destruct d; try (left; reflexivity); unfold base_map.
  - unfold pg_type. cbn [negb beqb andb].
    cases_one_of; try (left; reflexivity); right;
      (eapply Hfin; [eassumption|vm_compute; reflexivity..]).
  - unfold my_core. cases_one_of; cbn [beqb]; try (left; reflexivity); right;
      (eapply Hfin; [eassumption|vm_compute; reflexivity..]).
  - unfold ms_type. cases_one_of; try (left; reflexivity); right;
      (eapply Hfin; [eassumption|vm_compute; reflexivity..]).
Qed.

(** Only synonyms compare equal. *)
Lemma equal_types_are_synonyms d s1 s2 :
  bare d s1 -> bare d s2 ->
  normalize_column_type d s1 = normalize_column_type d s2 ->
  type_text s1 = type_text s2 \/ synonyms d (type_text s1) (type_text s2).
Proof.
  intros B1 B2. rewrite (bare_normalize d s1 B1), (bare_normalize d s2 B2). intros H.
  assert (Hf : base_map d (type_text s1) = base_map d (type_text s2)).
  { destruct (base_map d (type_text s1)), (base_map d (type_text s2)). cbn [fst snd] in H. congruence. }
  clear H. unfold synonyms.
  destruct (base_map_class d (type_text s1)) as [E1|(E1 & E1' & E1'')],
           (base_map_class d (type_text s2)) as [E2|(E2 & E2' & E2'')].
  - left. rewrite E1, E2 in Hf. congruence.
  - right. exists (class_of d (base_map d (type_text s2))).
    split; [exact E2|]. split; [|exact E2']. rewrite <- Hf, E1 in *. apply E2''. reflexivity.
  - right. exists (class_of d (base_map d (type_text s1))).
    split; [exact E1|]. split; [exact E1'|]. rewrite Hf, E2 in *. apply E1''. reflexivity.
  - right. exists (class_of d (base_map d (type_text s1))).
    split; [exact E1|]. split; [exact E1'|]. rewrite Hf. exact E2'.
Qed.

(** Synonyms compare equal, in any letter case and with surrounding white space. *)
Lemma normalize_type_text d s : normalize_column_type d s = normalize_column_type d (type_text s).
Proof.
  unfold normalize_column_type. replace (split_type (type_text s)) with (split_type s); [reflexivity|].
  unfold split_type, type_text.
  rewrite (trim_space_id (to_upper (trim_space s))) by (apply trimmed_upper, trim_space_trimmed).
  rewrite to_upper_idem. reflexivity.
Qed.

Definition res_eqb (a b : result (bytes * bytes * bytes)) : bool :=
  match a, b with
  | Ok (x, y, z), Ok (x', y', z') => beqb x x' && beqb y y' && beqb z z'
  | _, _ => false
  end.

Lemma res_eqb_eq a b : res_eqb a b = true -> a = b.
Proof.
  destruct a as [[[x y] z]| |], b as [[[x' y'] z']| |]; try discriminate. cbn.
  intros H. apply andb_true_iff in H as [H H3]. apply andb_true_iff in H as [H1 H2].
  apply beqb_eq in H1, H2, H3. subst. reflexivity.
Qed.

Lemma spellings_checked :
  forallb (fun d => forallb (fun c => forallb (fun a => forallb (fun b =>
     res_eqb (normalize_column_type d a) (normalize_column_type d b)) c) c) (spellings d))
    [SQLite; Postgres; MySQL; SQLServer; Other] = true.
Proof. vm_compute. reflexivity. Qed.

Lemma spellings_equal d c s1 s2 :
  In c (spellings d) -> In (type_text s1) c -> In (type_text s2) c ->
  normalize_column_type d s1 = normalize_column_type d s2.
Proof.
  intros Hc H1 H2. rewrite (normalize_type_text d s1), (normalize_type_text d s2).
  apply res_eqb_eq. pose proof spellings_checked as H. rewrite forallb_forall in H.
  specialize (H d). assert (Hd : In d [SQLite; Postgres; MySQL; SQLServer; Other]) by (destruct d; cbn; tauto).
  specialize (H Hd). rewrite forallb_forall in H. specialize (H c Hc).
  rewrite forallb_forall in H. specialize (H _ H1). rewrite forallb_forall in H. exact (H _ H2).
Qed.
