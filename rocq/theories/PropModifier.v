(** Properties C13 and C61: the modifiers in struct tags. *)
From Verif Require Import GoStr GoStrFacts ModelModifier SpecModifier ModifierFacts.

(** ** C13: parsing ends without a panic on every text *)
Theorem C13_total : forall s, exists r, new_modifiers s = Some r /\ r <> Panic.
Proof. exact parsing_total. Qed.
Print Assumptions C13_total.

Theorem C13_raw_total : forall m, exists r, parse_raw_value m = Some r /\ r <> Panic.
Proof. exact parse_raw_total. Qed.
Print Assumptions C13_raw_total.

Example C13_example_error :
  new_modifiers (B"notnull default={a {b} c") = Some Err
  /\ new_modifiers (B"==  :x=} sqlite,mysql:type={}") =
     Some (Ok [Mod [B""] (B"x") (B"}") [] []; Mod [B"sqlite"; B"mysql"] (B"type") [] [] []]).
Proof. vm_compute. split; reflexivity. Qed.

(** ** C13: what is printed is read back, at every depth *)
(** Missing from the full claim: lists that start with a modifier of one character
    and modifiers that are restricted to some dialects. *)
Theorem C13_round_trip_partial : forall ms, Forall printable ms -> long_start ms ->
  exists ms', new_modifiers (modifiers_string ms) = Some (Ok ms') /\ Forall2 reads ms ms'.
Proof. exact round_trip. Qed.
Print Assumptions C13_round_trip_partial.

(** After a name of one character there is no blank, and dialects are not printed. *)
Theorem C13_refuted :
  (exists a b, plain_name a /\ plain_name b
     /\ new_modifiers (modifiers_string [Mod [] a [] [] []; Mod [] b [] [] []]) = Some (Ok [Mod [] (a ++ b) [] [] []]))
  /\ exists d m, plain_name d /\ new_modifiers (d ++ B":" ++ m_name m) = Some (Ok [Mod [d] (m_name m) [] [] []])
     /\ new_modifiers (modifiers_string [Mod [d] (m_name m) [] [] []]) = Some (Ok [Mod [] (m_name m) [] [] []]).
Proof.
  assert (P : forall n, n <> [] -> forallb (fun x => negb (existsb (ceqb x) (B" ={}:"))) n = true -> plain_name n).
  { intros n Hn H. split; auto. intros x Hx Hi. rewrite forallb_forall in H. apply H in Hx.
    apply negb_true_iff in Hx. rewrite <- not_true_iff_false in Hx. apply Hx.
    apply existsb_exists. exists x. split; auto. apply ceqb_refl. }
  split.
  - exists (B"a"), (B"b"). repeat split; try (apply P; [discriminate|reflexivity]).
  - exists (B"sqlite"), (Mod [] (B"unique") [] [] []). repeat split; try (apply P; [discriminate|reflexivity]).
Qed.
Print Assumptions C13_refuted.

Definition nested : list modifier :=
  [Mod [] (B"notnull") [] [] [];
   Mod [] (B"references") [] (B"public.inventory") [Mod [] (B"onupdate") (B"cascade") [] []; Mod [] (B"index") [] [] [Mod [] (B"unique") [] [] []]];
   Mod [] (B"check") [] (B"a < {fn b}") []].
Example C13_example :
  modifiers_string nested
  = B"notnull references={public.inventory onupdate=cascade index={. unique}} check={{a < {fn b}}}"
  /\ long_start nested.
Proof. vm_compute. split; [reflexivity|exact I]. Qed.
Example C13_example_printable : Forall printable nested.
Proof.
  assert (P : forall n, n <> [] -> forallb (fun x => negb (existsb (ceqb x) (B" ={}:"))) n = true -> plain_name n).
  { intros n Hn H. split; auto. intros x Hx Hi. rewrite forallb_forall in H. apply H in Hx.
    apply negb_true_iff in Hx. rewrite <- not_true_iff_false in Hx. apply Hx.
    apply existsb_exists. exists x. split; auto. apply ceqb_refl. }
  assert (V : forall v, forallb (fun x => negb (ceqb x "{"%char) && negb (ceqb x "}"%char)) v = true -> plain_value v).
  { intros v H. rewrite forallb_forall in H. split.
    - apply balanced_no_braces; intros Hi; apply H in Hi; discriminate.
    - right. intros s ->. specialize (H "{"%char (or_introl eq_refl)). discriminate. }
  unfold nested.
  repeat first [apply Forall_nil | apply Forall_cons | apply pr_value | apply pr_raw
                | apply P; [discriminate|reflexivity] | apply V; reflexivity | discriminate].
  split; [|left; simpl; auto].
  change (B"a < {fn b}") with (B"a < " ++ ("{"%char :: B"fn b" ++ B"}")).
  apply balanced_app; [apply balanced_no_braces; simpl; intuition discriminate|].
  apply balanced_braces. apply balanced_no_braces; simpl; intuition discriminate.
Qed.

(** ** C61: the value that is read *)
Theorem C61_unquoted : forall s v r,
  (forall t, trim_blanks s <> "{"%char :: t) -> pop_value s = Ok (v, r) ->
  trim_blanks s = v ++ r /\ ~ In SPACE v /\ match r with [] => True | x :: _ => x = SPACE end.
Proof. exact unquoted_value. Qed.
Print Assumptions C61_unquoted.

Theorem C61_unclosed : forall s,
  (forall u w, s = u ++ "}"%char :: w -> ~ balanced u) -> pop_value ("{"%char :: s) = Err.
Proof.
  intros s H. destruct (pop_value_cases ("{"%char :: s)) as [|(v & r & E & _)]; auto.
  destruct (accepted_closes _ _ _ E) as (u & w & Es & Hb). exfalso. eapply H; eauto.
Qed.
Print Assumptions C61_unclosed.

(** Missing from the full claim: text that follows the closing brace. *)
Theorem C61_quoted_partial : forall s r, balanced s -> match r with [] => True | x :: _ => x = SPACE end ->
  pop_value ("{"%char :: s ++ "}"%char :: r) = Ok (s, r).
Proof. exact pop_value_braces. Qed.
Print Assumptions C61_quoted_partial.

(** The first and last characters are cut off whatever they are. *)
Theorem C61_refuted : exists s r v, balanced s /\ pop_value ("{"%char :: s ++ "}"%char :: r) = Ok (v, []) /\ v <> s /\ ~ balanced v.
Proof.
  exists (B"abc"), (B"def"), (B"abc}de"). repeat split.
  - apply balanced_no_braces; simpl; intuition discriminate.
  - discriminate.
  - intros H. apply balanced_count in H. discriminate.
Qed.
Print Assumptions C61_refuted.

Example C61_example :
  pop_value (B"{one {two} three} four") = Ok (B"one {two} three", B" four")
  /\ pop_value (B"  one{two three} four") = Ok (B"one{two", B" three} four")
  /\ pop_value (B"{one {two} three") = Err.
Proof. vm_compute. repeat split. Qed.
