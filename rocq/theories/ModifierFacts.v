(** Printing and parsing of modifiers. *)
From Verif Require Import GoStr GoStrFacts ModelModifier SpecModifier.

(** ** Parsing ends and does not panic *)
Lemma trim_blanks_length s : List.length (trim_blanks s) <= List.length s.
Proof. induction s as [|x s IH]; simpl; auto. destruct (ceqb x SPACE); simpl; lia. Qed.

Lemma trim_blanks_head s x t : trim_blanks s = x :: t -> x <> SPACE.
Proof.
  induction s as [|y s IH]; simpl; [discriminate|].
  destruct (ceqb_spec y SPACE); auto. intros [= -> ->]; auto.
Qed.

Lemma value_scan_app q l s a b n : scan_value q l s = (a, b, n) -> s = a ++ b.
Proof.
  revert l a b n. induction s as [|x s IH]; simpl; intros l a b n.
  - intros [= <- <- <-]; reflexivity.
  - destruct (ceqb x SPACE && (l =? 0)).
    + intros [= <- <- <-]; reflexivity.
    + destruct (scan_value q _ s) as [[a' b'] n'] eqn:E. intros [= <- <- <-].
      apply IH in E. simpl. congruence.
Qed.

Lemma scan_value_short s a b n : scan_value true 0 ("{"%char :: s) = (a, b, n) ->
  n = 0 -> 2 <= List.length a.
Proof.
  cbn. destruct (scan_value true 1 s) as [[a' b'] n'] eqn:E. intros [= <- <- <-] ->.
  destruct a'; simpl; [|lia].
  destruct s as [|x s]; simpl in E; [discriminate|].
  rewrite andb_false_r in E.
  destruct (scan_value true _ s) as [[? ?] ?]; discriminate.
Qed.

Lemma pop_value_cases s : pop_value s = Err \/
  exists v r, pop_value s = Ok (v, r) /\ List.length r <= List.length s.
Proof.
  unfold pop_value. pose proof (trim_blanks_length s) as L.
  destruct (trim_blanks s) as [|x t] eqn:Et.
  { right; exists [], []; split; auto. }
  destruct (scan_value _ 0 (x :: t)) as [[a b] n] eqn:E.
  destruct (0 <? n) eqn:En; auto. apply Nat.ltb_ge in En.
  pose proof (value_scan_app _ _ _ _ _ _ E) as Eab.
  assert (Lb : List.length b <= List.length s).
  { apply (f_equal (@List.length ascii)) in Eab. rewrite app_length in Eab. unfold bytes in *. lia. }
  right. destruct (ceqb_spec x "{"%char) as [->|_].
  - apply scan_value_short in E; [|lia].
    destruct a as [|y [|z a]]; simpl in E; try lia. simpl. eauto.
  - eauto.
Qed.

Lemma scan_name_app s a b : scan_name s = (a, b) -> s = a ++ b.
Proof.
  revert a b. induction s as [|x s IH]; simpl; intros a b.
  - intros [= <- <-]; reflexivity.
  - destruct (_ || _).
    + intros [= <- <-]; reflexivity.
    + destruct (scan_name s). intros [= <- <-]. simpl. f_equal; auto.
Qed.

Lemma pop_modifier_cases s : s <> [] -> pop_modifier s = Err \/
  exists m r, pop_modifier s = Ok (m, r) /\ List.length r < List.length s.
Proof.
  intros Hs. unfold pop_modifier. pose proof (trim_blanks_length s) as L.
  destruct (trim_blanks s) as [|x t] eqn:Et.
  { right. do 2 eexists. split; eauto. destruct s; [congruence|simpl; lia]. }
  apply trim_blanks_head in Et.
  destruct (scan_name (x :: t)) as [name rest] eqn:E.
  pose proof (scan_name_app _ _ _ E) as Er.
  assert (Lr : List.length name + List.length rest <= List.length s).
  { apply (f_equal (@List.length ascii)) in Er. rewrite app_length in Er. unfold bytes in *. lia. }
  destruct (split_dialects name) as [ds n].
  destruct rest as [|y rest'].
  { right. do 2 eexists. split; eauto. destruct s; [congruence|simpl; lia]. }
  destruct (ceqb_spec y "="%char) as [->|Hy].
  - simpl in Lr. destruct rest' as [|z rest''].
    + right. do 2 eexists. split; [reflexivity|]. simpl. lia.
    + destruct (ceqb z SPACE).
      * right. do 2 eexists. split; [reflexivity|]. simpl in *. lia.
      * destruct (pop_value_cases (z :: rest'')) as [-> | (v & r & -> & Lv)]; auto.
        right. do 2 eexists. split; [reflexivity|]. simpl in *. lia.
  - right. do 2 eexists. split; [reflexivity|].
    cbn [scan_name] in E. destruct (ceqb_spec x SPACE) as [->|]; [congruence|].
    destruct (ceqb_spec x "="%char) as [->|]; simpl in E.
    + injection E as <- <- <-. congruence.
    + destruct (scan_name t). injection E as <- ->. simpl in *. lia.
Qed.

Lemma new_modifiers_total fuel s : List.length s <= fuel ->
  exists r, new_modifiers_loop fuel s = Some r /\ r <> Panic.
Proof.
  revert s. induction fuel as [|fuel IH]; intros s L; destruct s as [|x s].
  - simpl. eexists; split; eauto; discriminate.
  - simpl in L; lia.
  - simpl. eexists; split; eauto; discriminate.
  - cbn [new_modifiers_loop].
    destruct (pop_modifier_cases (x :: s)) as [-> | (m & r & -> & Lr)]; [discriminate| |].
    + eexists; split; eauto; discriminate.
    + destruct (IH r) as (r' & -> & Hp); [lia|].
      destruct r'; eexists; split; eauto; discriminate.
Qed.

Lemma new_modifiers_fuel fuel fuel' s r : fuel <= fuel' ->
  new_modifiers_loop fuel s = Some r -> new_modifiers_loop fuel' s = Some r.
Proof.
  revert fuel' s r. induction fuel as [|fuel IH]; intros fuel' s r L.
  - destruct s; simpl; [|discriminate]. destruct fuel'; auto.
  - destruct fuel' as [|fuel']; [lia|]. destruct s as [|x s]; auto.
    cbn [new_modifiers_loop]. destruct (pop_modifier (x :: s)) as [[m rest]| |]; auto.
    destruct (new_modifiers_loop fuel rest) as [r'|] eqn:E; [|discriminate].
    apply (IH fuel') in E; [|lia]. rewrite E. auto.
Qed.

(** ** Balanced texts *)
Lemma balanced_app s t : balanced s -> balanced t -> balanced (s ++ t).
Proof.
  intros Hs Ht. induction Hs; simpl; auto.
  - constructor; auto.
  - rewrite <- app_assoc. simpl. apply bal_braces; auto.
Qed.

Lemma balanced_braces s : balanced s -> balanced ("{"%char :: s ++ B"}").
Proof. intros. apply (bal_braces s []); auto. constructor. Qed.

Lemma balanced_no_braces s : ~ In "{"%char s -> ~ In "}"%char s -> balanced s.
Proof.
  induction s as [|x s IH]; intros; constructor; simpl in *; try (intros ->); intuition.
Qed.

Lemma scan_balanced s l t : balanced s ->
  scan_value true (S l) (s ++ t) =
  let '(a, b, n) := scan_value true (S l) t in (s ++ a, b, n).
Proof.
  intros H. revert l t. induction H as [|x s H1 H2 _ IH|s t _ IHs _ IHt]; intros l u.
  - simpl. destruct (scan_value true (S l) u) as [[? ?] ?]; reflexivity.
  - cbn [app scan_value]. rewrite andb_false_r.
    apply ceqb_neq in H1. apply ceqb_neq in H2. rewrite H1, H2, IH.
    destruct (scan_value true (S l) u) as [[? ?] ?]; reflexivity.
  - cbn [app scan_value]. rewrite andb_false_r.
    change (ceqb "{" "{") with true. cbv iota beta.
    rewrite <- app_assoc, IHs. cbn [app scan_value]. rewrite andb_false_r.
    change (ceqb "}" "{") with false. change (ceqb "}" "}") with true. cbv iota beta.
    cbn [pred]. rewrite IHt.
    destruct (scan_value true (S l) u) as [[? ?] ?].
    now rewrite <- app_assoc.
Qed.

(** The remainder of a text after a value or a modifier. *)
Definition tail_ok (r : bytes) : Prop := match r with [] => True | x :: _ => x = SPACE end.

Lemma scan_stop q r : tail_ok r -> scan_value q 0 r = ([], r, 0).
Proof. destruct r; simpl; auto. intros ->. reflexivity. Qed.

Lemma scan_plain v r : ~ In SPACE v -> tail_ok r -> scan_value false 0 (v ++ r) = (v, r, 0).
Proof.
  intros H Hr. induction v as [|x v IH]; simpl.
  - now apply scan_stop.
  - destruct (ceqb_spec x SPACE) as [->|]; [simpl in H; tauto|]. cbn [andb].
    rewrite IH; auto. simpl in H; tauto.
Qed.

Lemma inner_braces s : inner ("{"%char :: s ++ B"}") = Ok s.
Proof.
  destruct s as [|x s]; [reflexivity|]. cbn [app inner].
  change (x :: s ++ B"}") with ((x :: s) ++ ["}"%char]). now rewrite removelast_last.
Qed.

Lemma pop_value_braces s r : balanced s -> tail_ok r ->
  pop_value ("{"%char :: s ++ "}"%char :: r) = Ok (s, r).
Proof.
  intros Hs Hr. unfold pop_value. cbn [trim_blanks]. change (ceqb "{" SPACE) with false. cbv iota.
  change (ceqb "{" "{") with true.
  assert (E : scan_value true 0 ("{"%char :: s ++ "}"%char :: r) = ("{"%char :: s ++ B"}", r, 0)).
  { cbn [scan_value]. change (ceqb "{" SPACE) with false. change (ceqb "{" "{") with true. cbn [andb].
    cbv iota. rewrite scan_balanced; auto. cbn [scan_value].
    change (ceqb "}" SPACE) with false. change (ceqb "}" "{") with false. change (ceqb "}" "}") with true.
    cbn [andb pred]. cbv iota. now rewrite scan_stop. }
  rewrite E. cbn [Nat.ltb Nat.leb]. now rewrite inner_braces.
Qed.

Lemma pop_value_plain x v r : x <> SPACE -> x <> "{"%char -> ~ In SPACE v -> tail_ok r ->
  pop_value (x :: v ++ r) = Ok (x :: v, r).
Proof.
  intros Hx Hb Hv Hr. unfold pop_value. cbn [trim_blanks].
  apply ceqb_neq in Hx as Ex. apply ceqb_neq in Hb. rewrite Ex, Hb.
  change (x :: v ++ r) with ((x :: v) ++ r). rewrite scan_plain; auto.
  intros [->|]; auto.
Qed.

(** ** Printed texts *)
(** What is printed for a value in front of submodifiers. *)
Definition value_text (v : bytes) : bytes :=
  match v with
  | [] => B"."
  | _ => if has_blank v then B"{" ++ v ++ B"}" else v
  end.

Fixpoint text (m : modifier) : bytes :=
  match m with
  | Mod _ name raw value subs =>
      name ++
      match raw with
      | _ :: _ => if has_blank raw then B"={" ++ raw ++ B"}" else B"=" ++ raw
      | [] =>
          match value, subs with
          | [], [] => []
          | _, _ =>
              if has_blank value || match subs with [] => false | _ => true end
              then B"={" ++ value_text value ++ flat_map (fun m => SPACE :: text m) subs ++ B"}"
              else B"=" ++ value
          end
      end
  end.
Definition texts (ms : list modifier) : bytes := flat_map (fun m => SPACE :: text m) ms.

Definition modifier_nested (P : modifier -> Prop)
  (H : forall ds n r v subs, Forall P subs -> P (Mod ds n r v subs)) : forall m, P m :=
  fix rec (m : modifier) : P m :=
    match m with
    | Mod ds n r v subs =>
        H ds n r v subs
          ((fix go l : Forall P l :=
              match l with
              | [] => Forall_nil _
              | m :: l' => Forall_cons _ (rec m) (go l')
              end) subs)
    end.

Lemma has_blank_In s : has_blank s = true <-> In SPACE s.
Proof.
  unfold has_blank. rewrite existsb_exists. split.
  - intros (x & Hx & E). apply ceqb_eq in E as ->. auto.
  - intros; exists SPACE; auto.
Qed.
Lemma has_blank_not s : has_blank s = false <-> ~ In SPACE s.
Proof. rewrite <- has_blank_In. destruct (has_blank s); intuition congruence. Qed.

(** A text that does not end in a blank. *)
Definition closed (s : bytes) : Prop := exists t x, s = t ++ [x] /\ x <> SPACE.

Lemma closed_app s t : closed t -> closed (s ++ t).
Proof. intros (u & x & -> & Hx). exists (s ++ u), x. now rewrite app_assoc. Qed.
Lemma closed_end s x : x <> SPACE -> closed (s ++ [x]).
Proof. intros. exists s, x; auto. Qed.
Lemma closed_blankless s : s <> [] -> ~ In SPACE s -> closed s.
Proof.
  intros H1 H2. destruct (exists_last H1) as (t & x & ->). exists t, x. split; auto.
  intros ->. apply H2. apply in_or_app; simpl; auto.
Qed.
Lemma space_end s x : x <> SPACE -> ceqb (nth (List.length (s ++ [x]) - 1) (s ++ [x]) SPACE) SPACE = false.
Proof.
  intros. rewrite app_length. simpl. replace (List.length s + 1 - 1) with (List.length s) by lia.
  rewrite app_nth2, Nat.sub_diag; auto. now apply ceqb_neq.
Qed.

Lemma plain_name_blankless n : plain_name n -> ~ In SPACE n.
Proof. intros [_ H] Hi. apply H in Hi. apply Hi. simpl. auto. Qed.

Lemma name_not c n : plain_name n -> In c (B" ={}:") -> ~ In c n.
Proof. intros [_ H] Hc Hi. apply H in Hi; auto. Qed.

Lemma text_closed m : printable m -> closed (text m).
Proof.
  intros H. destruct H as [n raw value subs Hn Hr Hv | n value subs Hn Hv Hs]; cbn [text].
  - destruct raw as [|x raw]; [congruence|]. destruct (has_blank (x :: raw)) eqn:E.
    + apply closed_app. rewrite !app_assoc. now apply closed_end.
    + apply has_blank_not in E. rewrite (app_assoc n). apply closed_app. now apply closed_blankless.
  - assert (Hc : closed n) by (apply closed_blankless; [apply Hn|now apply plain_name_blankless]).
    destruct value as [|x value], subs as [|m subs].
    + now rewrite app_nil_r.
    + change (has_blank [] || true) with true. cbv iota. apply closed_app. rewrite !app_assoc. now apply closed_end.
    + destruct (has_blank (x :: value)) eqn:E; cbn [orb].
      * apply closed_app. rewrite !app_assoc. now apply closed_end.
      * apply has_blank_not in E. rewrite (app_assoc n). apply closed_app. now apply closed_blankless.
    + rewrite orb_true_r. apply closed_app. rewrite !app_assoc. now apply closed_end.
Qed.

(** The buffer before a modifier that is separated from what precedes it. *)
Definition ready (buf : bytes) : Prop := closed buf /\ 2 <= List.length buf.

Lemma ready_app buf s : ready buf -> closed s -> ready (buf ++ s).
Proof. intros [_ L] H. split; [now apply closed_app|rewrite app_length; lia]. Qed.

Definition sep (buf : bytes) : bytes :=
  if (0 <? List.length buf - 1) && negb (ceqb (nth (List.length buf - 1) buf SPACE) SPACE) then B" " else [].

Lemma sep_ready buf : ready buf -> sep buf = B" ".
Proof.
  intros [(s & x & -> & Hx) L]. unfold sep. rewrite space_end; auto.
  assert (E : (0 <? List.length (s ++ [x]) - 1) = true) by (apply Nat.ltb_lt; lia).
  now rewrite E.
Qed.

Definition write_all : bytes -> list modifier -> bytes :=
  fix go buf ms := match ms with [] => buf | m :: ms' => go (write_buf buf m) ms' end.
Lemma write_all_fold buf ms : write_all buf ms = fold_left write_buf ms buf.
Proof. revert buf; induction ms; simpl; auto. Qed.

Lemma write_buf_eq buf ds n raw value subs : n <> [] -> write_buf buf (Mod ds n raw value subs) =
  let buf := (buf ++ sep buf) ++ n in
  match raw with
  | _ :: _ => if has_blank raw then buf ++ B"={" ++ raw ++ B"}" else buf ++ B"=" ++ raw
  | [] =>
      match value, subs with
      | [], [] => buf
      | _, _ =>
          let braces := has_blank value || match subs with [] => false | _ => true end in
          let buf := write_all (((if braces then (buf ++ B"=") ++ B"{" else buf ++ B"=")) ++ value_text value) subs in
          if braces then buf ++ B"}" else buf
      end
  end.
Proof.
  intros Hn. destruct n as [|c n]; [congruence|]. unfold sep.
  cbn [write_buf]. fold write_all.
  destruct ((0 <? _) && _).
  all: try rewrite app_nil_r.
  all: destruct raw; [|reflexivity].
  all: unfold value_text; destruct value; [destruct subs; reflexivity|].
  all: cbv zeta; destruct (has_blank (a :: value)); reflexivity.
Qed.

Lemma write_buf_text m : printable m -> forall buf, write_buf buf m = buf ++ sep buf ++ text m.
Proof.
  induction m as [ds n raw value subs IH] using modifier_nested. intros Hp buf.
  assert (Hn : plain_name n) by (inversion Hp; auto).
  rewrite write_buf_eq by apply Hn. cbv zeta.
  destruct raw as [|x raw].
  2:{ cbn [text]. destruct (has_blank (x :: raw)); now rewrite <- !app_assoc. }
  inversion Hp as [|? ? ? _ Hv Hs]; subst; [congruence|].
  assert (W : forall ms, Forall (fun m => printable m -> forall buf, write_buf buf m = buf ++ sep buf ++ text m) ms ->
            Forall printable ms -> forall b, ready b -> write_all b ms = b ++ texts ms /\ ready (b ++ texts ms)).
  { clear. induction ms as [|m ms IHm]; intros H1 H2 b Hb; simpl.
    - rewrite app_nil_r; auto.
    - inversion H1; inversion H2; subst. rewrite H3; auto. rewrite sep_ready by auto.
      assert (Hr : ready (b ++ B" " ++ text m)).
      { apply ready_app; auto. apply closed_app. now apply text_closed. }
      destruct (IHm H4 H8 _ Hr) as [E1 E2]. rewrite <- !app_assoc in *. simpl in *. split; auto. }
  cbn [text].
  destruct value as [|v value].
  - destruct subs as [|m subs]; [now rewrite !app_nil_r, <- !app_assoc|].
    change (has_blank []) with false. cbn [orb]. cbv iota.
    destruct (W (m :: subs) IH Hs ((((((buf ++ sep buf) ++ n) ++ B"=") ++ B"{")) ++ value_text [])) as [E _].
    { split; [now apply closed_end|]. rewrite !app_length. simpl. lia. }
    rewrite E. unfold texts. rewrite <- !app_assoc. reflexivity.
  - destruct (has_blank (v :: value)) eqn:Eb; cbn [orb]; cbv iota.
    + destruct (W subs IH Hs ((((((buf ++ sep buf) ++ n) ++ B"=") ++ B"{")) ++ value_text (v :: value))) as [E _].
      { unfold value_text. rewrite Eb. split; [rewrite !app_assoc; now apply closed_end|]. rewrite !app_length. simpl. lia. }
      rewrite E. unfold texts. rewrite <- !app_assoc.
      destruct subs; reflexivity.
    + destruct subs as [|m subs].
      * cbn [write_all value_text]. rewrite Eb, <- !app_assoc. reflexivity.
      * destruct (W (m :: subs) IH Hs ((((((buf ++ sep buf) ++ n) ++ B"=") ++ B"{")) ++ value_text (v :: value))) as [E _].
        { unfold value_text. rewrite Eb. apply has_blank_not in Eb.
          split; [apply closed_app; now apply closed_blankless|]. rewrite !app_length. simpl. lia. }
        rewrite E. unfold texts. rewrite <- !app_assoc. reflexivity.
Qed.

Lemma string_texts m ms : Forall printable (m :: ms) -> long_start (m :: ms) ->
  modifiers_string (m :: ms) = text m ++ texts ms.
Proof.
  intros H Hl. inversion H as [|? ? Hm Hms]; subst.
  unfold modifiers_string. cbn [fold_left]. rewrite write_buf_text by auto.
  change (sep []) with (@nil ascii). cbn [app].
  destruct ms as [|m' ms]; [now rewrite app_nil_r|].
  assert (Hr : ready (text m)).
  { split; [now apply text_closed|]. clear - Hm Hl.
    destruct m as [ds n raw value subs]. simpl in Hl.
    destruct n as [|c [|c' n]]; [| |simpl; lia].
    - inversion Hm; subst; exfalso; match goal with H : plain_name [] |- _ => destruct H; auto end.
    - cbn [text]. destruct raw as [|x raw].
      + destruct value as [|v value], subs as [|m subs]; [|cbn; lia|..].
        * exfalso. exact Hl.
        * destruct (has_blank _); cbn; lia.
        * rewrite orb_true_r. cbn. lia.
      + destruct (has_blank _); cbn; lia. }
  revert Hr Hms. generalize (text m) as b. generalize (m' :: ms) as l. clear.
  induction l as [|m l IH]; intros b Hb H; [now rewrite app_nil_r|].
  inversion H; subst. cbn [fold_left]. rewrite write_buf_text, sep_ready by auto.
  rewrite IH; auto.
  - unfold texts. cbn [flat_map]. rewrite <- !app_assoc. reflexivity.
  - apply ready_app; auto. apply closed_app. now apply text_closed.
Qed.

(** ** Reading the printed texts *)
Lemma value_text_balanced v : balanced v -> balanced (value_text v).
Proof.
  intros H. destruct v as [|x v]; cbn [value_text].
  - apply balanced_no_braces; simpl; intuition discriminate.
  - destruct (has_blank _); auto. now apply balanced_braces.
Qed.

Lemma texts_balanced ms : Forall (fun m => balanced (text m)) ms -> balanced (texts ms).
Proof.
  induction 1; simpl; [constructor|]. constructor; try discriminate. now apply balanced_app.
Qed.

Lemma balanced_eq s : balanced s -> balanced (B"=" ++ s).
Proof. intros; constructor; auto; discriminate. Qed.

Lemma text_balanced m : printable m -> balanced (text m).
Proof.
  induction m as [ds n raw value subs IH] using modifier_nested. intros Hp.
  assert (Hn : plain_name n) by (inversion Hp; auto).
  cbn [text]. apply balanced_app.
  { apply balanced_no_braces; apply name_not; simpl; auto 10. }
  destruct raw as [|x raw].
  - inversion Hp as [|? ? ? _ [Hv _] Hs]; subst; [congruence|].
    assert (Ht : balanced (texts subs)).
    { apply texts_balanced. rewrite Forall_forall in *. auto. }
    assert (E : balanced (B"={" ++ value_text value ++ texts subs ++ B"}")).
    { change (B"={" ++ ?s) with (B"=" ++ "{"%char :: s). apply balanced_eq.
      rewrite app_assoc. apply balanced_braces. apply balanced_app; auto. now apply value_text_balanced. }
    destruct value as [|v value], subs as [|m subs].
    + constructor.
    + exact E.
    + destruct (has_blank _); auto. now apply balanced_eq.
    + rewrite orb_true_r. auto.
  - assert (Hr : balanced (x :: raw)) by (inversion Hp as [? ? ? ? ? ? []|]; auto).
    destruct (has_blank _); [|now apply balanced_eq].
    change (B"={" ++ ?s) with (B"=" ++ "{"%char :: s). apply balanced_eq. now apply balanced_braces.
Qed.

Lemma scan_name_eq n r : ~ In SPACE n -> ~ In "="%char n -> tail_ok r \/ (exists s, r = "="%char :: s) ->
  scan_name (n ++ r) = (n, r).
Proof.
  intros H1 H2 Hr. induction n as [|x n IH]; cbn [app scan_name].
  - destruct r as [|y r]; auto. cbn [scan_name].
    destruct Hr as [Hr|(s & [= -> ->])]; [simpl in Hr; subst y|]; reflexivity.
  - destruct (ceqb_spec x SPACE) as [->|]; [simpl in H1; tauto|].
    destruct (ceqb_spec x "="%char) as [->|]; [simpl in H2; tauto|].
    cbn [orb]. rewrite IH; simpl in *; tauto.
Qed.

Lemma split_plain n : plain_name n -> split_dialects n = ([], n).
Proof.
  intros H. unfold split_dialects.
  assert (E : cut_byte ":"%char n = None) by (apply cut_byte_None; apply name_not; simpl; auto 10).
  now rewrite E.
Qed.

Lemma pop_name n r : plain_name n -> tail_ok r -> pop_modifier (n ++ r) = Ok (Mod [] n [] [] [], r).
Proof.
  intros Hn Hr. unfold pop_modifier.
  assert (E : trim_blanks (n ++ r) = n ++ r).
  { destruct n as [|x n]; [destruct Hn; congruence|]. cbn [app trim_blanks].
    destruct (ceqb_spec x SPACE) as [->|]; auto. exfalso. apply (name_not SPACE _ Hn); simpl; auto. }
  assert (S : scan_name (n ++ r) = (n, r)) by (apply scan_name_eq; auto; apply name_not; simpl; auto 10).
  assert (Hne : n ++ r <> []) by (destruct Hn; destruct n; [congruence|discriminate]).
  rewrite E. destruct (n ++ r) as [|x0 l0]; [congruence|]. rewrite S, split_plain by auto.
  destruct r as [|y r]; auto. simpl in Hr; subst y. reflexivity.
Qed.

Lemma pop_eq n s v r : plain_name n -> s <> [] -> hd SPACE s <> SPACE -> pop_value s = Ok (v, r) ->
  pop_modifier (n ++ B"=" ++ s) = Ok (Mod [] n v [] [], r).
Proof.
  intros Hn Hs Hh Hp. unfold pop_modifier.
  assert (E : trim_blanks (n ++ B"=" ++ s) = n ++ B"=" ++ s).
  { destruct n as [|x n]; [destruct Hn; congruence|]. cbn [app trim_blanks].
    destruct (ceqb_spec x SPACE) as [->|]; auto. exfalso. apply (name_not SPACE _ Hn); simpl; auto. }
  assert (S : scan_name (n ++ B"=" ++ s) = (n, B"=" ++ s)).
  { apply scan_name_eq; try (apply name_not; simpl; auto 10; fail). right. eexists. reflexivity. }
  assert (Hne : n ++ B"=" ++ s <> []) by (destruct n; discriminate).
  rewrite E. destruct (n ++ B"=" ++ s) as [|x0 l0]; [congruence|]. rewrite S, split_plain by auto. cbn [B app].
  change (ceqb "=" "=") with true. cbv iota.
  destruct s as [|y s]; [congruence|]. simpl in Hh. apply ceqb_neq in Hh. now rewrite Hh, Hp.
Qed.

(** The raw value that is read for a printed modifier. *)
Definition raw_text (m : modifier) : bytes :=
  match m with
  | Mod _ _ raw value subs =>
      match raw with
      | _ :: _ => raw
      | [] =>
          match value, subs with
          | [], [] => []
          | _, _ =>
              if has_blank value || match subs with [] => false | _ => true end
              then value_text value ++ texts subs
              else value
          end
      end
  end.

Lemma plain_head x v : plain_value (x :: v) -> has_blank (x :: v) = false -> x <> SPACE /\ x <> "{"%char /\ ~ In SPACE v.
Proof.
  intros [_ H] E. apply has_blank_not in E. destruct H as [H|H]; [tauto|]. simpl in E.
  repeat split; try tauto. intros ->. eapply H; eauto.
Qed.

Lemma pop_text m r : printable m -> tail_ok r ->
  pop_modifier (text m ++ r) = Ok (Mod [] (m_name m) (raw_text m) [] [], r).
Proof.
  intros Hp Hr. destruct m as [ds n raw value subs].
  assert (Hn : plain_name n) by (inversion Hp; auto).
  assert (Q : forall s, balanced s ->
     pop_modifier ((n ++ B"={" ++ s ++ B"}") ++ r) = Ok (Mod [] n s [] [], r)).
  { intros s Hs. rewrite <- !app_assoc. apply (pop_eq n ("{"%char :: s ++ "}"%char :: r)); auto; try discriminate.
    now apply pop_value_braces. }
  assert (U : forall x v, plain_value (x :: v) -> has_blank (x :: v) = false ->
     pop_modifier ((n ++ B"=" ++ x :: v) ++ r) = Ok (Mod [] n (x :: v) [] [], r)).
  { intros x v Hv Hb. destruct (plain_head _ _ Hv Hb) as (H1 & H2 & H3).
    rewrite <- !app_assoc. apply pop_eq; auto; try discriminate. now apply pop_value_plain. }
  cbn [text raw_text m_name].
  destruct raw as [|x raw].
  - inversion Hp as [|? ? ? _ Hv Hs]; subst; [congruence|].
    assert (Hb : balanced (value_text value ++ texts subs)).
    { apply balanced_app; [apply value_text_balanced; apply Hv|]. apply texts_balanced.
      eapply Forall_impl; [|apply Hs]. apply text_balanced. }
    assert (E : pop_modifier ((n ++ B"={" ++ value_text value ++ flat_map (fun m => SPACE :: text m) subs ++ B"}") ++ r)
                = Ok (Mod [] n (value_text value ++ texts subs) [] [], r)).
    { rewrite (app_assoc (value_text value)). now apply Q. }
    destruct value as [|v value], subs as [|m subs].
    + rewrite app_nil_r. now apply pop_name.
    + exact E.
    + destruct (has_blank (v :: value)) eqn:Eb; [exact E|]. now apply U.
    + rewrite orb_true_r. exact E.
  - assert (Hv : plain_value (x :: raw)) by (inversion Hp; auto).
    destruct (has_blank (x :: raw)) eqn:Eb; [apply Q; apply Hv | now apply U].
Qed.

Lemma texts_tail ms : tail_ok (texts ms).
Proof. destruct ms; simpl; auto. Qed.

Lemma pop_trim s : pop_modifier (SPACE :: s) = pop_modifier s.
Proof. reflexivity. Qed.

Definition parsed (m : modifier) : modifier := Mod [] (m_name m) (raw_text m) [] [].

Lemma new_loop_texts ms fuel : Forall printable ms -> List.length ms <= fuel ->
  new_modifiers_loop fuel (texts ms) = Some (Ok (map parsed ms)).
Proof.
  revert fuel. induction ms as [|m ms IH]; intros fuel H L.
  - simpl. destruct fuel; reflexivity.
  - destruct fuel as [|fuel]; [simpl in L; lia|]. inversion H; subst.
    unfold texts. cbn [flat_map app new_modifiers_loop].
    rewrite pop_trim. fold (texts ms). rewrite pop_text by (auto using texts_tail).
    rewrite IH by (auto; simpl in L; lia). cbn [m_name map].
    unfold parsed. destruct (m_name m) eqn:E; [|reflexivity].
    exfalso. inversion H2; subst; simpl in E; subst; match goal with H : plain_name [] |- _ => destruct H; auto end.
Qed.

Lemma texts_length ms : List.length ms <= List.length (texts ms).
Proof. induction ms; simpl; auto. rewrite app_length. lia. Qed.

Lemma new_texts ms : Forall printable ms -> new_modifiers (texts ms) = Some (Ok (map parsed ms)).
Proof. intros. apply new_loop_texts; auto. apply texts_length. Qed.

Lemma new_trim s : s <> [] -> new_modifiers s = new_modifiers (SPACE :: s).
Proof.
  intros Hs. unfold new_modifiers.
  destruct (new_modifiers_total (List.length s) s) as (r & E & _); auto.
  rewrite E. symmetry. cbn [List.length].
  apply (new_modifiers_fuel _ (S (List.length s))) in E; [|lia].
  destruct s as [|x s]; [congruence|].
  cbn [List.length new_modifiers_loop] in *. rewrite pop_trim. exact E.
Qed.

Lemma parse_shown value subs : plain_value value -> value <> [] \/ subs <> [] ->
  pop_value (value_text value ++ texts subs) = Ok (shown_value value subs, texts subs).
Proof.
  intros [Hb Hv] Hne. destruct value as [|x value].
  - destruct subs as [|m subs]; [destruct Hne; congruence|].
    change (value_text []) with (B"."). apply (pop_value_plain "."%char []); try discriminate; auto. apply texts_tail.
  - cbn [shown_value value_text]. destruct (has_blank (x :: value)) eqn:E.
    + rewrite <- !app_assoc. apply pop_value_braces; auto. apply texts_tail.
    + destruct (plain_head x value) as (H1 & H2 & H3); auto; [split; auto|].
      apply pop_value_plain; auto. apply texts_tail.
Qed.

Lemma raw_ne value subs : value <> [] \/ subs <> [] -> value_text value ++ texts subs <> [].
Proof. destruct value; [discriminate|]. intros _. cbn [value_text]. destruct (has_blank _); discriminate. Qed.

Lemma reads_parsed m : printable m -> reads m (parsed m).
Proof.
  induction m as [ds n raw value subs IH] using modifier_nested. intros Hp.
  assert (ds = []) as -> by (inversion Hp; auto).
  unfold parsed. cbn [raw_text m_name].
  destruct raw as [|x raw]; [|constructor; discriminate].
  inversion Hp as [|? ? ? Hn Hv Hs]; subst; [congruence|].
  assert (F : Forall2 reads subs (map parsed subs)).
  { clear - IH Hs. induction subs; simpl; constructor; inversion IH; inversion Hs; subst; auto. }
  assert (P : value <> [] \/ subs <> [] ->
     parse_raw_value (Mod [] n (value_text value ++ texts subs) [] [])
     = Some (Ok (Mod [] n (value_text value ++ texts subs) (shown_value value subs) (map parsed subs)))).
  { intros Hne. unfold parse_raw_value. cbn [m_raw m_dialects m_name].
    pose proof (raw_ne _ _ Hne) as Hr. pose proof (parse_shown _ _ Hv Hne) as E.
    destruct (value_text value ++ texts subs) as [|y l]; [congruence|].
    rewrite E, new_texts; auto. }
  apply rd_value with (subs' := map parsed subs); auto.
  destruct value as [|v value], subs as [|m subs]; try reflexivity.
  - apply P. right; discriminate.
  - destruct (has_blank (v :: value)) eqn:Eb; cbn [orb].
    + apply P. left; discriminate.
    + assert (Et : value_text (v :: value) ++ texts [] = v :: value).
      { cbn [value_text]. rewrite Eb. apply app_nil_r. }
      rewrite <- Et at 1 2. rewrite P; [|left; discriminate]. now rewrite Et.
  - rewrite orb_true_r. apply P. left; discriminate.
Qed.

Lemma round_trip ms : Forall printable ms -> long_start ms ->
  exists ms', new_modifiers (modifiers_string ms) = Some (Ok ms') /\ Forall2 reads ms ms'.
Proof.
  intros H Hl. exists (map parsed ms). split.
  - destruct ms as [|m ms]; [reflexivity|].
    rewrite string_texts by auto.
    assert (Hne : text m ++ texts ms <> []).
    { inversion H as [|? ? Hm _]; subst. destruct (text_closed _ Hm) as (t & x & -> & _). destruct t; discriminate. }
    rewrite new_trim by auto. change (SPACE :: text m ++ texts ms) with (texts (m :: ms)).
    now apply new_texts.
  - clear Hl. induction H; simpl; constructor; auto. now apply reads_parsed.
Qed.

Lemma parsing_total s : exists r, new_modifiers s = Some r /\ r <> Panic.
Proof. now apply new_modifiers_total. Qed.

Lemma parse_raw_total m : exists r, parse_raw_value m = Some r /\ r <> Panic.
Proof.
  unfold parse_raw_value. destruct (m_raw m) as [|x raw].
  { eexists; split; eauto; discriminate. }
  destruct (pop_value_cases (x :: raw)) as [-> | (v & r & -> & _)].
  { eexists; split; eauto; discriminate. }
  destruct (parsing_total r) as (r' & -> & Hp).
  destruct r'; try congruence; eexists; split; eauto; discriminate.
Qed.

(** ** Braces of a value that is accepted *)
Lemma scan_closes k s : List.length s <= k -> forall l a b n,
  scan_value true (S l) s = (a, b, n) -> n <= l ->
  exists u w a', s = u ++ "}"%char :: w /\ balanced u /\ scan_value true l w = (a', b, n).
Proof.
  revert s. induction k as [|k IH]; intros s L l a b n E Hn; destruct s as [|x s].
  - simpl in E. injection E as <- <- <-. lia.
  - simpl in L. lia.
  - simpl in E. injection E as <- <- <-. lia.
  - simpl in L. cbn [scan_value] in E. rewrite andb_false_r in E.
    destruct (ceqb_spec x "{"%char) as [->|H1].
    + destruct (scan_value true (S (S l)) s) as [[a1 b1] n1] eqn:E1. injection E as <- <- <-.
      destruct (IH s ltac:(lia) (S l) _ _ _ E1 ltac:(lia)) as (u1 & w1 & a2 & -> & B1 & E2).
      assert (L2 : List.length w1 <= k) by (rewrite app_length in L; simpl in L; lia).
      destruct (IH w1 L2 l _ _ _ E2 Hn) as (u2 & w2 & a3 & -> & B2 & E3).
      exists ("{"%char :: u1 ++ "}"%char :: u2), w2, a3. split; [|split]; auto.
      * simpl. now rewrite <- app_assoc.
      * now apply bal_braces.
    + destruct (ceqb_spec x "}"%char) as [->|H2].
      * cbn [pred] in E. destruct (scan_value true l s) as [[a1 b1] n1] eqn:E1. injection E as <- <- <-.
        exists [], s, a1. repeat split; auto. constructor.
      * destruct (scan_value true (S l) s) as [[a1 b1] n1] eqn:E1. injection E as <- <- <-.
        destruct (IH s ltac:(lia) l _ _ _ E1 Hn) as (u1 & w1 & a2 & -> & B1 & E2).
        exists (x :: u1), w1, a2. repeat split; auto. now constructor.
Qed.

Lemma accepted_closes s v r : pop_value ("{"%char :: s) = Ok (v, r) ->
  exists u w, s = u ++ "}"%char :: w /\ balanced u.
Proof.
  unfold pop_value. cbn [trim_blanks]. change (ceqb "{" SPACE) with false. cbv iota.
  change (ceqb "{" "{") with true.
  destruct (scan_value true 0 ("{"%char :: s)) as [[a b] n] eqn:E.
  destruct (0 <? n) eqn:En; [discriminate|]. apply Nat.ltb_ge in En. intros _.
  cbn [scan_value] in E. change (ceqb "{" SPACE) with false in E. change (ceqb "{" "{") with true in E.
  cbn [andb] in E. cbv iota in E.
  destruct (scan_value true 1 s) as [[a1 b1] n1] eqn:E1. injection E as <- <- <-.
  destruct (scan_closes (List.length s) s (le_n _) 0 _ _ _ E1 En) as (u & w & _ & -> & Hb & _). eauto.
Qed.

(** A value without braces is the text up to the first blank. *)
Lemma unquoted_value s v r : (forall t, trim_blanks s <> "{"%char :: t) -> pop_value s = Ok (v, r) ->
  trim_blanks s = v ++ r /\ ~ In SPACE v /\ tail_ok r.
Proof.
  intros H. unfold pop_value. destruct (trim_blanks s) as [|x t] eqn:Et.
  { intros [= <- <-]. simpl. auto. }
  assert (Ex : ceqb x "{"%char = false) by (apply ceqb_neq; intros ->; eapply H; eauto).
  rewrite Ex. destruct (scan_value false 0 (x :: t)) as [[a b] n] eqn:E.
  destruct (0 <? n); [discriminate|]. intros [= <- <-].
  split; [now apply value_scan_app in E|]. clear - E.
  revert a b n E. generalize (x :: t) as l. induction l as [|y l IH]; simpl; intros a b n.
  - intros [= <- <- <-]. simpl. auto.
  - destruct (ceqb_spec y SPACE) as [->|Hy]; cbn [andb].
    + intros [= <- <- <-]. simpl. auto.
    + destruct (scan_value false 0 l) as [[a' b'] n'] eqn:E. intros [= <- <- <-].
      destruct (IH _ _ _ eq_refl) as [H1 H2]. split; auto. intros [->|]; auto.
Qed.

Lemma count_app c s t : count_byte c (s ++ t) = count_byte c s + count_byte c t.
Proof. induction s; simpl; lia. Qed.
Lemma balanced_count s : balanced s -> count_byte "{"%char s = count_byte "}"%char s.
Proof.
  induction 1 as [|x s H1 H2 _ IH|s t _ IHs _ IHt]; auto.
  - simpl. apply ceqb_neq in H1. apply ceqb_neq in H2. rewrite H1, H2. auto.
  - cbn [count_byte]. rewrite !count_app. cbn [count_byte]. rewrite IHs, IHt. cbn. lia.
Qed.
