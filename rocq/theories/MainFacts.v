(** Facts about the flag parser of ModelMain and the command lines of SpecMain. *)
From Verif Require Import GoStr GoStrFacts ModelMain SpecMain.

Lemma minus_c : minus = "-"%char. Proof. reflexivity. Qed.
Lemma ceqb_true a b : ceqb a b = true <-> a = b.
Proof. apply Ascii.eqb_eq. Qed.
Lemma ceqb_false a b : a <> b -> ceqb a b = false.
Proof. intros N. destruct (ceqb_spec a b); congruence. Qed.

Definition body (name : bytes) : arg :=
  match name with
  | [] => BadSyntax
  | n :: _ =>
      if ceqb n minus || ceqb n equals then BadSyntax
      else match cut_byte equals name with Some (a, v) => Flag a (Some v) | None => Flag name None end
  end.
Lemma flag_of_dashes : forall d name, dashes d -> name <> [] -> (forall r, name <> minus :: r) -> flag_of (d ++ name) = body name.
Proof.
  intros d [|n r] D N H; [contradiction|]. assert (M : ceqb n minus = false) by (apply ceqb_false; intros ->; apply (H r); reflexivity).
  destruct D as [->| ->]; cbn [B app flag_of]; change (ceqb "-" minus) with true; cbv iota.
  - rewrite M. cbn [andb]. reflexivity.
  - cbn [andb]. cbv iota. reflexivity.
Qed.
Lemma body_flag : forall name, plain_name name -> body name = Flag name None.
Proof.
  intros [|n r] (N & E & M); [contradiction|]. unfold body. rewrite (ceqb_false n minus) by (intros ->; apply (M r); reflexivity).
  rewrite (ceqb_false n equals) by (intros ->; apply E; left; reflexivity). cbn [orb]. rewrite (proj2 (cut_byte_None equals (n :: r)) E). reflexivity.
Qed.
Lemma body_value : forall name v, plain_name name -> body (name ++ B"=" ++ v) = Flag name (Some v).
Proof.
  intros [|n r] v (N & E & M); [contradiction|]. unfold body. cbn [app]. rewrite (ceqb_false n minus) by (intros ->; apply (M r); reflexivity).
  rewrite (ceqb_false n equals) by (intros ->; apply E; left; reflexivity). cbn [orb].
  change (n :: r ++ B"=" ++ v) with ((n :: r) ++ equals :: v). rewrite (cut_byte_app equals (n :: r) v E). reflexivity.
Qed.
Lemma flag_word : forall d name, dashes d -> plain_name name -> flag_of (d ++ name) = Flag name None.
Proof. intros d name D P. rewrite flag_of_dashes; [apply body_flag, P|exact D|apply P|intros r; apply P]. Qed.
Lemma flag_word_value : forall d name v, dashes d -> plain_name name -> flag_of (d ++ name ++ B"=" ++ v) = Flag name (Some v).
Proof.
  intros d name v D P. rewrite flag_of_dashes; [apply body_value, P|exact D| |].
  - destruct P as (N & _). destruct name; [contradiction|discriminate].
  - intros r E. destruct P as (N & _ & M). destruct name as [|n t]; [contradiction|]. cbn [app] in E. injection E as -> _. apply (M t). reflexivity.
Qed.
(** The other way round. *)
Lemma flag_of_inv : forall s name value, flag_of s = Flag name value ->
  plain_name name /\ exists d, dashes d /\ s = d ++ name ++ match value with Some v => B"=" ++ v | None => [] end.
Proof.
  intros s name value. assert (Bd : forall t, body t = Flag name value -> plain_name name /\ t = name ++ match value with Some v => B"=" ++ v | None => [] end).
  { intros [|n r]; unfold body; [discriminate|]. destruct (ceqb_spec n minus) as [->|M]; [discriminate|]. destruct (ceqb_spec n equals) as [->|Q]; [discriminate|]. cbn [orb].
    destruct (cut_byte equals (n :: r)) as [[a v]|] eqn:C; intros E; injection E as <- <-.
    - apply cut_byte_Some in C as (C & I). split; [|exact C]. destruct a as [|a0 a]; [cbn in C; injection C as C _; congruence|]. injection C as <- C.
      split; [discriminate|]. split; [exact I|]. intros t X. injection X as X _. apply M. exact X.
    - apply cut_byte_None in C. split; [|rewrite app_nil_r; reflexivity]. split; [discriminate|]. split; [exact C|]. intros t X. injection X as X _. apply M. exact X. }
  destruct s as [|c [|d t]]; cbn [flag_of]; try discriminate. destruct (ceqb_spec c minus) as [->|N]; [|discriminate].
  destruct (ceqb_spec d minus) as [->|N].
  - destruct t as [|x t]; [discriminate|]. cbn [andb]. intros E. apply (Bd (x :: t)) in E as (P & E). split; [exact P|]. exists (B"--"). split; [right; reflexivity|]. rewrite E. reflexivity.
  - cbn [andb]. intros E. apply (Bd (d :: t)) in E as (P & E). split; [exact P|]. exists (B"-"). split; [left; reflexivity|]. rewrite E. reflexivity.
Qed.
Lemma not_flag_iff : forall s, flag_of s = NotFlag <-> ~ looks_like_flag s.
Proof.
  intros [|c [|d t]]; cbn [flag_of].
  - split; [intros _ (a & r & E); discriminate|reflexivity].
  - split; [intros _ (a & r & E); discriminate|reflexivity].
  - destruct (ceqb_spec c minus) as [->|N].
    + split; [|intros H; exfalso; apply H; exists d, t; reflexivity]. destruct (ceqb d minus && _); [discriminate|].
      destruct (if ceqb d minus then t else d :: t) as [|n r]; [discriminate|]. destruct (ceqb n minus || ceqb n equals); [discriminate|].
      destruct (cut_byte equals (n :: r)) as [[a v]|]; discriminate.
    + split; [|reflexivity]. intros _ (a & r & E). injection E as E _ _. apply N. exact E.
Qed.
Lemma terminator_iff : forall s, flag_of s = Terminator -> s = B"--".
Proof.
  intros [|c [|d t]]; cbn [flag_of]; try discriminate. destruct (ceqb_spec c minus) as [->|N]; [|discriminate].
  destruct (ceqb_spec d minus) as [->|N].
  - destruct t as [|x t]; [reflexivity|]. cbn [andb]. destruct (ceqb x minus || ceqb x equals); [discriminate|]. destruct (cut_byte equals (x :: t)) as [[a v]|]; discriminate.
  - cbn [andb]. destruct (ceqb d minus || ceqb d equals); [discriminate|]. destruct (cut_byte equals (d :: t)) as [[a v]|]; discriminate.
Qed.

(** Flags that a command knows, with values that it takes. *)
Definition known (int_ok : bytes -> bool) (flags : bytes -> option kind) (s : bytes * bytes) : Prop :=
  exists k, flags (fst s) = Some k /\ value_ok int_ok k (snd s) = true.
Definition switch (flags : bytes -> option kind) (n : bytes) : Prop := flags n = Some KBool.
Definition with_settings (l : settings) (p : parsed) : parsed := fold_right add p l.
Lemma with_parsed : forall l s r, with_settings l (Parsed s r) = Parsed (l ++ s) r.
Proof. induction l as [|x l IH]; intros s r; cbn; [reflexivity|]. unfold with_settings in IH. rewrite IH. reflexivity. Qed.

Lemma parse_one : forall int_ok flags n v a tail, written (switch flags) n v a -> known int_ok flags (n, v) ->
  parse int_ok flags (a ++ tail) = add (n, v) (parse int_ok flags tail).
Proof.
  intros int_ok flags n v a tail (P & d & D & W) (k & K & V). cbn [fst snd] in *. destruct W as [->|[(S & ->)|(S & -> & ->)]]; cbn [app parse].
  - rewrite (flag_word_value d n v D P), K. destruct k; rewrite V; reflexivity.
  - rewrite (flag_word d n D P), K. destruct k; [rewrite V; reflexivity|contradiction|rewrite V; reflexivity].
  - rewrite (flag_word d n D P), K. unfold switch in S. rewrite K in S. injection S as ->. reflexivity.
Qed.
Lemma parse_line : forall int_ok flags l ws tail, all_written (switch flags) l ws -> Forall (known int_ok flags) l ->
  parse int_ok flags (ws ++ tail) = with_settings l (parse int_ok flags tail).
Proof.
  induction l as [|(n, v) l IH]; intros ws tail W F; cbn [all_written] in W.
  - subst ws. reflexivity.
  - destruct W as (a & b & -> & Wa & Wb). inversion F as [|? ? Fa Fb]; subst. rewrite <- app_assoc, (parse_one _ _ n v) by assumption. rewrite (IH b tail Wb Fb). reflexivity.
Qed.
Lemma parse_arguments : forall int_ok flags files ws, arguments files ws -> parse int_ok flags ws = Parsed [] files.
Proof.
  intros int_ok flags files ws [->|(-> & H)]; [reflexivity|]. destruct files as [|f files]; [reflexivity|]. cbn [parse]. rewrite (proj2 (not_flag_iff f) H). reflexivity.
Qed.
Lemma written_length : forall sw l ws, all_written sw l ws -> l <> [] -> ws <> [].
Proof.
  intros sw [|(n, v) l] ws W N; [contradiction|]. destruct W as (a & b & -> & (_ & d & _ & W) & _). destruct W as [->|[(_ & ->)|(_ & _ & ->)]]; discriminate.
Qed.
(** What is parsed was written. *)
Lemma parse_inv : forall int_ok flags m args l rest, List.length args <= m -> parse int_ok flags args = Parsed l rest ->
  exists ws tail, args = ws ++ tail /\ all_written (switch flags) l ws /\ arguments rest tail /\ Forall (known int_ok flags) l.
Proof.
  induction m as [|m IH]; intros [|s args] l rest L E; cbn [List.length] in L; try (inversion L; fail).
  - cbn in E. injection E as <- <-. exists [], []. repeat split; [right; split; [reflexivity|exact Logic.I]|constructor].
  - cbn in E. injection E as <- <-. exists [], []. repeat split; [right; split; [reflexivity|exact Logic.I]|constructor].
  - assert (Step : forall n v a tl, s :: args = a ++ tl -> List.length tl <= m -> written (switch flags) n v a -> known int_ok flags (n, v) ->
      add (n, v) (parse int_ok flags tl) = Parsed l rest ->
      exists ws tail, s :: args = ws ++ tail /\ all_written (switch flags) l ws /\ arguments rest tail /\ Forall (known int_ok flags) l).
    { intros n v a tl S Lt W K Ad. destruct (parse int_ok flags tl) as [l' r'| |] eqn:Pt; cbn [add] in Ad; try discriminate. injection Ad as <- <-.
      destruct (IH tl l' r' Lt Pt) as (ws & tail & -> & W' & A & F). exists (a ++ ws), tail. rewrite <- app_assoc. split; [exact S|].
      split; [exists a, ws; auto|]. split; [exact A|]. constructor; assumption. }
    cbn [parse] in E. destruct (flag_of s) as [| | |n v] eqn:Fs; try discriminate.
    + injection E as <- <-. exists [], (s :: args). split; [reflexivity|]. split; [reflexivity|]. split; [|constructor]. right. split; [reflexivity|]. apply not_flag_iff, Fs.
    + injection E as <- <-. apply terminator_iff in Fs. subst s. exists [], (B"--" :: args). repeat split; [left; reflexivity|constructor].
    + destruct (flags n) as [k|] eqn:K; [|destruct (beqb n (B"help") || beqb n (B"h")); discriminate]. apply flag_of_inv in Fs as (P & d & D & Ss).
      destruct v as [v|].
      * assert (E' : (if value_ok int_ok k v then add (n, v) (parse int_ok flags args) else Wrong) = Parsed l rest) by (destruct k; exact E).
        destruct (value_ok int_ok k v) eqn:V; [|discriminate]. apply (Step n v [s] args); [reflexivity|apply le_S_n, L| |exists k; auto|exact E'].
        split; [exact P|]. exists d. split; [exact D|]. left. rewrite Ss. reflexivity.
      * rewrite app_nil_r in Ss. destruct k.
        -- destruct args as [|v args]; [discriminate|]. cbn [value_ok] in E. apply (Step n v [s; v] args); [reflexivity|cbn in L; apply le_S_n in L; apply Nat.lt_le_incl; exact L| |exists KString; auto|exact E].
           split; [exact P|]. exists d. split; [exact D|]. right. left. split; [unfold switch; congruence|rewrite Ss; reflexivity].
        -- apply (Step n (B"true") [s] args); [reflexivity|apply le_S_n, L| |exists KBool; split; [exact K|reflexivity]|exact E].
           split; [exact P|]. exists d. split; [exact D|]. right. right. split; [exact K|]. split; [reflexivity|rewrite Ss; reflexivity].
        -- destruct args as [|v args]; [discriminate|]. destruct (value_ok int_ok KInt v) eqn:V; [|discriminate].
           apply (Step n v [s; v] args); [reflexivity|cbn in L; apply le_S_n in L; apply Nat.lt_le_incl; exact L| |exists KInt; auto|exact E].
           split; [exact P|]. exists d. split; [exact D|]. right. left. split; [unfold switch; congruence|rewrite Ss; reflexivity].
Qed.
(** Help is given only if it is asked for. *)
Lemma parse_help : forall int_ok flags m args, List.length args <= m -> parse int_ok flags args = HelpAsked -> exists w, In w args /\ help_word w.
Proof.
  induction m as [|m IH]; intros [|s args] L E; cbn [List.length] in L; try (inversion L; fail); try discriminate.
  assert (Ad : forall x p, add x p = HelpAsked -> p = HelpAsked) by (intros x [] H; cbn in H; congruence).
  cbn [parse] in E. destruct (flag_of s) as [| | |n v] eqn:Fs; try discriminate.
  destruct (flags n) as [k|] eqn:K.
  - assert (G : forall tl, List.length tl <= m -> (forall w, In w tl -> In w args) -> parse int_ok flags tl = HelpAsked -> exists w, In w (s :: args) /\ help_word w).
    { intros tl Lt Sub H. destruct (IH tl Lt H) as (w & I & W). exists w. split; [right; apply Sub, I|exact W]. }
    assert (L' : List.length args <= m) by (apply le_S_n, L).
    destruct v as [v|].
    + destruct k; (destruct (value_ok int_ok _ v); [|discriminate]); apply (G args); auto; eapply Ad; exact E.
    + destruct k.
      * destruct args as [|v args]; [discriminate|]. cbn [value_ok] in E. apply (G args); [cbn in L'; apply Nat.lt_le_incl, L'|intros w I; right; exact I|eapply Ad; exact E].
      * apply (G args); auto; eapply Ad; exact E.
      * destruct args as [|v args]; [discriminate|]. destruct (value_ok int_ok KInt v); [|discriminate].
        apply (G args); [cbn in L'; apply Nat.lt_le_incl, L'|intros w I; right; exact I|eapply Ad; exact E].
  - exists s. split; [left; reflexivity|]. apply flag_of_inv in Fs as (_ & d & D & ->).
    assert (N : n = B"h" \/ n = B"help").
    { destruct (beqb n (B"help")) eqn:A; [right; apply beqb_eq, A|]. destruct (beqb n (B"h")) eqn:C; [left; apply beqb_eq, C|discriminate]. }
    exists d, n. split; [exact D|]. split; [exact N|]. destruct v as [v|]; [right; exists v; reflexivity|left; rewrite app_nil_r; reflexivity].
Qed.
