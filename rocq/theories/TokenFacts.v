(** Dividing generated texts into tokens. *)
From Verif Require Import GoStr GoStrFacts ModelSq SpecSql SqFacts SpecInsert SpecTokens.
From Coq Require Import ZifyBool ZifyNat.

(** ** Several tokens *)
Inductive lexed (d : dialect) : bytes -> list token -> bytes -> Prop :=
| lexed_none s : lexed d s [] s
| lexed_one s ts r ts' r' : lex_one d s = Some (ts, r) -> lexed d r ts' r' -> lexed d s (ts ++ ts') r'.
Lemma lexed_app d s ts r ts' r' : lexed d s ts r -> lexed d r ts' r' -> lexed d s (ts ++ ts') r'.
Proof.
  intros H H'. induction H as [|s ts r ts1 r1 E H IH]; [exact H'|]. rewrite <- app_assoc. exact (lexed_one d s ts r _ _ E (IH H')).
Qed.
Lemma lexed_step d s ts r : lex_one d s = Some (ts, r) -> lexed d s ts r.
Proof. intros E. rewrite <- (app_nil_r ts). exact (lexed_one d s ts r [] r E (lexed_none d r)). Qed.

Lemma lex_quoted_shorter c s v r : lex_quoted c s = Some (v, r) -> List.length r < List.length s.
Proof.
  revert v r. induction s as [s IH] using list_len_ind; intros v r. destruct s as [|x s]; [discriminate|]. cbn [lex_quoted].
  destruct (ceqb x c).
  - destruct s as [|y s]; [intros [= <- <-]; cbn; lia|]. destruct (ceqb y c).
    + destruct (lex_quoted c s) as [[v' r']|] eqn:E; [|discriminate]. intros [= <- <-]. specialize (IH s ltac:(cbn; lia) _ _ E). cbn. lia.
    + intros [= <- <-]. cbn. lia.
  - destruct (lex_quoted c s) as [[v' r']|] eqn:E; [|discriminate]. intros [= <- <-]. specialize (IH s ltac:(cbn; lia) _ _ E). cbn. lia.
Qed.
Lemma lex_quoted_bs_shorter c s v r : lex_quoted_bs c s = Some (v, r) -> List.length r < List.length s.
Proof.
  revert v r. induction s as [s IH] using list_len_ind; intros v r. destruct s as [|x s]; [discriminate|]. cbn [lex_quoted_bs].
  destruct (ceqb x backslash).
  { destruct s as [|y s]; [discriminate|]. destruct (lex_quoted_bs c s) as [[v' r']|] eqn:E; [|discriminate]. intros [= <- <-]. specialize (IH s ltac:(cbn; lia) _ _ E). cbn. lia. }
  destruct (ceqb x c).
  - destruct s as [|y s]; [intros [= <- <-]; cbn; lia|]. destruct (ceqb y c).
    + destruct (lex_quoted_bs c s) as [[v' r']|] eqn:E; [|discriminate]. intros [= <- <-]. specialize (IH s ltac:(cbn; lia) _ _ E). cbn. lia.
    + intros [= <- <-]. cbn. lia.
  - destruct (lex_quoted_bs c s) as [[v' r']|] eqn:E; [|discriminate]. intros [= <- <-]. specialize (IH s ltac:(cbn; lia) _ _ E). cbn. lia.
Qed.
Lemma take_ident_split s w r : take_ident s = (w, r) -> s = w ++ r.
Proof.
  revert w r. induction s as [|c s IH]; intros w r; cbn [take_ident]; [intros [= <- <-]; reflexivity|].
  destruct (ident_continue c); [|intros [= <- <-]; reflexivity]. destruct (take_ident s) as [a b]. intros [= <- <-]. cbn [app]. rewrite <- (IH a b eq_refl). reflexivity.
Qed.
Lemma take_number_split s w r : take_number s = (w, r) -> s = w ++ r.
Proof.
  revert w r. induction s as [|c s IH]; intros w r; cbn [take_number]; [intros [= <- <-]; reflexivity|].
  destruct (ident_continue c || ceqb c ".")%bool; [|intros [= <- <-]; reflexivity]. destruct (take_number s) as [a b]. intros [= <- <-]. cbn [app]. rewrite <- (IH a b eq_refl). reflexivity.
Qed.
Lemma ident_start_continue c : ident_start c = true -> ident_continue c = true.
Proof. unfold ident_start, ident_continue. intros H. apply orb_true_iff in H as [H|H]; rewrite H; cbn; rewrite ?orb_true_r; reflexivity. Qed.
Lemma digit_continue c : is_digit c = true -> ident_continue c = true.
Proof. unfold ident_continue. intros ->. rewrite orb_true_r. reflexivity. Qed.
Lemma lex_one_shorter d s ts r : lex_one d s = Some (ts, r) -> List.length r < List.length s.
Proof.
  unfold lex_one. destruct s as [|c s]; [discriminate|]. destruct (is_space c); [intros [= <- <-]; cbn; lia|].
  destruct (ceqb c squote).
  { unfold lex_strlit. intros H. assert (exists v, (match d with MySQL => lex_quoted_bs "'" s | _ => lex_quoted "'" s end) = Some (v, r)) as (v & E).
    { destruct d; cbn [andthen] in H; [destruct (lex_quoted "'" s) as [[v r']|]|destruct (lex_quoted "'" s) as [[v r']|]|destruct (lex_quoted_bs "'" s) as [[v r']|]|destruct (lex_quoted "'" s) as [[v r']|]|destruct (lex_quoted "'" s) as [[v r']|]]; try discriminate H; cbn [andthen] in H; injection H as _ ->; eexists; reflexivity. }
    cbn [List.length]. destruct d; first [apply lex_quoted_shorter in E|apply lex_quoted_bs_shorter in E]; lia. }
  destruct (ceqb c (id_open d)).
  { destruct (lex_quoted (id_close d) s) as [[v r']|] eqn:E; [|discriminate]. cbn [andthen]. intros [= <- <-]. apply lex_quoted_shorter in E. cbn. lia. }
  destruct (strip_prefix (B"x'") (c :: s)) as [s''|] eqn:E.
  { apply (proj1 (strip_prefix_Some _ _ _)) in E. destruct (cut_byte squote s'') as [[h r']|] eqn:C; [|discriminate]. cbn [andthen]. destruct (hex_decode h); [|discriminate]. cbn [andthen]. intros [= <- <-].
    apply cut_byte_Some in C as [-> _]. rewrite E, app_length, app_length. cbn. lia. }
  destruct (ident_start c) eqn:I.
  { cbn [take_ident]. rewrite (ident_start_continue c I). destruct (take_ident s) as [a b] eqn:T. intros [= <- <-]. apply take_ident_split in T as ->. cbn. rewrite app_length. lia. }
  destruct (is_digit c) eqn:Dg.
  { cbn [take_number]. rewrite (digit_continue c Dg). cbn [orb]. destruct (take_number s) as [a b] eqn:T. intros [= <- <-]. apply take_number_split in T as ->. cbn. rewrite app_length. lia. }
  destruct (comment c s); [discriminate|]. intros [= <- <-]. cbn. lia.
Qed.
Lemma lexed_tokens d s ts : lexed d s ts [] -> tokens d s = Some ts.
Proof.
  unfold tokens. intros H. assert (G : forall n, List.length s <= n -> lex_all n d s = Some ts); [|apply G; lia].
  remember [] as e eqn:Ee. induction H as [s|s ts r ts' r' E H IH]; intros n L.
  - subst s. destruct n; reflexivity.
  - pose proof (lex_one_shorter _ _ _ _ E) as Sh. destruct s as [|c s]; [cbn in E; discriminate E|]. destruct n as [|n]; [cbn in L; lia|]. cbn [lex_all]. rewrite E. cbn [andthen].
    rewrite (IH Ee n) by lia. reflexivity.
Qed.
Lemma tokens_lexed d s ts : tokens d s = Some ts -> lexed d s ts [].
Proof.
  unfold tokens. generalize (List.length s) as n. intros n. revert s ts. induction n as [|n IH]; intros s ts; destruct s as [|c s]; cbn [lex_all]; intros H; try discriminate H; try (injection H as <-; apply lexed_none).
  destruct (lex_one d (c :: s)) as [[t r]|] eqn:E; [|discriminate H]. cbn [andthen] in H. destruct (lex_all n d r) as [l|] eqn:L; [|discriminate H]. cbn [andthen] in H. injection H as <-.
  exact (lexed_one d _ _ _ _ _ E (IH _ _ L)).
Qed.

(** ** Fixed texts *)
(** Characters that mean the same in all dialects. *)
Definition plain_char (c : ascii) : bool :=
  is_space c || is_letter c || ceqb c underscore || ceqb c "(" || ceqb c ")" || ceqb c "," || ceqb c "." || ceqb c "=" || ceqb c ";" || ceqb c "*" || is_digit c.
(** The text ends with a character that ends every token. *)
Fixpoint closed_end (s : bytes) : bool :=
  match s with
  | [] => true
  | [c] => is_space c || ceqb c "(" || ceqb c ")" || ceqb c "," || ceqb c "=" || ceqb c ";" || ceqb c "*"
  | _ :: s' => closed_end s'
  end.
Lemma plain_open d c : plain_char c = true -> ceqb c squote = false /\ ceqb c (id_open d) = false.
Proof.
  intros H. split; apply ceqb_neq; intros ->; [|destruct d]; vm_compute in H; discriminate H.
Qed.
Lemma take_ident_more s w r rest : take_ident s = (w, r) -> r <> [] -> take_ident (s ++ rest) = (w, r ++ rest).
Proof.
  revert w r. induction s as [|c s IH]; intros w r; cbn [take_ident app]; [intros [= <- <-]; congruence|].
  destruct (ident_continue c); [|intros [= <- <-] _; reflexivity]. destruct (take_ident s) as [a b] eqn:T. intros [= <- <-] N. rewrite (IH a b eq_refl N). reflexivity.
Qed.
Lemma take_number_more s w r rest : take_number s = (w, r) -> r <> [] -> take_number (s ++ rest) = (w, r ++ rest).
Proof.
  revert w r. induction s as [|c s IH]; intros w r; cbn [take_number app]; [intros [= <- <-]; congruence|].
  destruct (ident_continue c || ceqb c ".")%bool; [|intros [= <- <-] _; reflexivity]. destruct (take_number s) as [a b] eqn:T. intros [= <- <-] N. rewrite (IH a b eq_refl N). reflexivity.
Qed.
Lemma closed_end_app a b : b <> [] -> closed_end (a ++ b) = closed_end b.
Proof.
  intros N. induction a as [|x a IH]; [reflexivity|]. cbn [app]. rewrite <- IH. cbn [closed_end]. destruct (a ++ b) eqn:E; [|reflexivity]. apply app_eq_nil in E as [_ ->]. congruence.
Qed.
Lemma take_all_open s : forallb (fun c => ident_continue c || ceqb c ".")%bool s = true -> s <> [] -> closed_end s = false.
Proof.
  induction s as [|c s IH]; [congruence|]. cbn [forallb]. intros H _. apply andb_true_iff in H as [H H']. destruct s as [|y s]; [|cbn [closed_end] in *; apply IH; [exact H'|discriminate]].
  cbn [closed_end]. destruct (is_space c || ceqb c "(" || ceqb c ")" || ceqb c "," || ceqb c "=" || ceqb c ";" || ceqb c "*")%bool eqn:E; [|reflexivity].
  revert E H. clear. destruct c as [b0 b1 b2 b3 b4 b5 b6 b7]. destruct b0, b1, b2, b3, b4, b5, b6, b7; vm_compute; congruence.
Qed.
Lemma take_ident_all s w r : take_ident s = (w, r) -> forallb ident_continue w = true.
Proof.
  revert w r. induction s as [|c s IH]; intros w r; cbn [take_ident]; [intros [= <- <-]; reflexivity|].
  destruct (ident_continue c) eqn:E; [|intros [= <- <-]; reflexivity]. destruct (take_ident s) as [a b] eqn:T. intros [= <- <-]. cbn [forallb]. rewrite E. exact (IH a b eq_refl).
Qed.
Lemma take_number_all s w r : take_number s = (w, r) -> forallb (fun c => ident_continue c || ceqb c ".")%bool w = true.
Proof.
  revert w r. induction s as [|c s IH]; intros w r; cbn [take_number]; [intros [= <- <-]; reflexivity|].
  destruct (ident_continue c || ceqb c ".")%bool eqn:E; [|intros [= <- <-]; reflexivity]. destruct (take_number s) as [a b] eqn:T. intros [= <- <-]. cbn [forallb]. rewrite E. exact (IH a b eq_refl).
Qed.
Lemma plain_step d s rest ts r : forallb plain_char s = true -> closed_end s = true -> lex_one Other s = Some (ts, r) ->
  lex_one d (s ++ rest) = Some (ts, r ++ rest) /\ forallb plain_char r = true /\ closed_end r = true.
Proof.
  intros P C. unfold lex_one. destruct s as [|c s]; [discriminate|]. cbn [forallb] in P. apply andb_true_iff in P as [Pc P]. cbn [app].
  destruct (plain_open d c Pc) as [-> ->]. destruct (plain_open Other c Pc) as [_ ->].
  assert (Cs : closed_end s = true) by (destruct s as [|y s]; [reflexivity|exact C]).
  destruct (is_space c); [intros [= <- <-]; auto|].
  assert (X : strip_prefix (B"x'") (c :: s) = None).
  { destruct (strip_prefix (B"x'") (c :: s)) as [s'|] eqn:E; [|reflexivity]. apply (proj1 (strip_prefix_Some _ _ _)) in E. injection E as -> ->. vm_compute in P. discriminate P. }
  assert (G : forall (w rr : bytes), c :: s = w ++ rr -> forallb (fun c => ident_continue c || ceqb c ".")%bool w = true -> w <> [] -> rr <> [] /\ forallb plain_char rr = true /\ closed_end rr = true).
  { intros w rr E Hw Nw. assert (Nr : rr <> []). { intros ->. rewrite app_nil_r in E. rewrite E in C. rewrite (take_all_open w Hw Nw) in C. discriminate C. }
    split; [exact Nr|]. split.
    - assert (Pa : forallb plain_char (c :: s) = true) by (cbn [forallb]; rewrite Pc, P; reflexivity). rewrite E, forallb_app in Pa. apply andb_true_iff in Pa as [_ Pa]. exact Pa.
    - rewrite <- C, E. symmetry. apply closed_end_app. exact Nr. }
  rewrite X. destruct (ident_start c) eqn:I.
  - destruct (take_ident (c :: s)) as [w rr] eqn:T. intros [= <- <-].
    assert (Nw : w <> []). { cbn [take_ident] in T. rewrite (ident_start_continue c I) in T. destruct (take_ident s). injection T as <- _. discriminate. }
    pose proof (take_ident_split _ _ _ T) as E. destruct (G w rr E) as (Nr & Pr & Cr); [|exact Nw|].
    { apply take_ident_all in T. apply forallb_forall. intros x Ix. rewrite forallb_forall in T. rewrite (T x Ix). reflexivity. }
    pose proof (take_ident_more _ _ _ rest T Nr) as T'. change ((c :: s) ++ rest) with (c :: s ++ rest) in T'. rewrite T'.
    assert (strip_prefix (B"x'") (c :: s ++ rest) = None) as ->; [|auto].
    destruct (strip_prefix (B"x'") (c :: s ++ rest)) as [s'|] eqn:E'; [|reflexivity]. apply (proj1 (strip_prefix_Some _ _ _)) in E'. injection E' as -> E'.
    destruct s as [|y s]; [vm_compute in C; discriminate C|]. cbn [app] in E'. injection E' as -> _. vm_compute in P. discriminate P.
  - assert (strip_prefix (B"x'") (c :: s ++ rest) = None) as ->.
    { destruct (strip_prefix (B"x'") (c :: s ++ rest)) as [s'|] eqn:E'; [|reflexivity]. apply (proj1 (strip_prefix_Some _ _ _)) in E'. injection E' as -> _. vm_compute in I. discriminate I. }
    destruct (is_digit c) eqn:Dg.
    + destruct (take_number (c :: s)) as [w rr] eqn:T. intros [= <- <-].
      assert (Nw : w <> []). { cbn [take_number] in T. rewrite (digit_continue c Dg) in T. cbn [orb] in T. destruct (take_number s). injection T as <- _. discriminate. }
      pose proof (take_number_split _ _ _ T) as E. destruct (G w rr E (take_number_all _ _ _ T) Nw) as (Nr & Pr & Cr).
      pose proof (take_number_more _ _ _ rest T Nr) as T'. change ((c :: s) ++ rest) with (c :: s ++ rest) in T'. rewrite T'. auto.
    + assert (Cm : forall s, comment c s = false).
      { intros s0. unfold comment. destruct s0; [reflexivity|]. replace (ceqb c "-") with false; [replace (ceqb c "/") with false; [reflexivity|]|]; symmetry; apply ceqb_neq; intros ->; vm_compute in Pc; discriminate Pc. }
      rewrite !Cm. intros [= <- <-]. auto.
Qed.
(** A fixed text has the same tokens everywhere. *)
Lemma plain_lexed d s ts rest : forallb plain_char s = true -> closed_end s = true -> tokens Other s = Some ts -> lexed d (s ++ rest) ts rest.
Proof.
  intros P C T. apply tokens_lexed in T. remember [] as e eqn:Ee. induction T as [s|s t r ts r' E T IH].
  - subst s. apply lexed_none.
  - destruct (plain_step d s rest t r P C E) as (E' & P' & C'). exact (lexed_one d _ _ _ _ _ E' (IH P' C' Ee)).
Qed.

(** ** Names *)
Lemma delimited_quote rest : delimited rest -> match rest with c :: _ => ceqb c squote = false | [] => True end.
Proof. destruct rest as [|c rest]; [auto|]. intros (_ & _ & H & _). apply ceqb_neq. exact H. Qed.
Lemma word_lexed d w rest : forallb ident_continue w = true -> (match w with c :: _ => ident_start c = true | [] => False end) -> delimited rest -> lexed d (w ++ rest) [Word w] rest.
Proof.
  intros A I R. apply lexed_step. destruct w as [|c w]; [contradiction|]. pose proof (take_ident_app _ _ A R) as T. cbn [app] in *. unfold lex_one.
  assert (is_space c = false) as -> by (revert I; clear; destruct c as [b0 b1 b2 b3 b4 b5 b6 b7]; destruct b0, b1, b2, b3, b4, b5, b6, b7; vm_compute; congruence).
  assert (ceqb c squote = false) as -> by (apply ceqb_neq; intros ->; vm_compute in I; discriminate I).
  rewrite (ident_start_not_open d c I).
  assert (strip_prefix (B"x'") (c :: w ++ rest) = None) as ->.
  { destruct (strip_prefix (B"x'") (c :: w ++ rest)) as [s'|] eqn:E'; [|reflexivity]. apply (proj1 (strip_prefix_Some _ _ _)) in E'. injection E' as -> E'.
    destruct w as [|y w]; cbn [app] in E'.
    - apply delimited_quote in R. rewrite E' in R. vm_compute in R. discriminate R.
    - injection E' as -> _. vm_compute in A. discriminate A. }
  rewrite I, T. reflexivity.
Qed.
Lemma name_lexed d s rest : delimited rest -> exists t, lexed d (quote_identifier d s ++ rest) [t] rest /\ name_token d t = Some (denoted d s).
Proof.
  intros R. pose proof (lex_quote_identifier d s rest R) as L. unfold lex_ident in L. destruct (quote_identifier d s ++ rest) as [|c s'] eqn:Q; [discriminate L|].
  destruct (ceqb_spec c (id_open d)) as [->|N].
  - exists (Quoted (denoted d s)). split; [|reflexivity]. apply lexed_step. unfold lex_one. rewrite ceqb_refl.
    assert (is_space (id_open d) = false) as -> by (destruct d; reflexivity). assert (ceqb (id_open d) squote = false) as -> by (destruct d; reflexivity). rewrite L. reflexivity.
  - destruct (ident_start c) eqn:I; [|discriminate L]. destruct (take_ident (c :: s')) as [w r] eqn:T. destruct (bmem (to_lower w) (reserved d)) eqn:M; [discriminate L|]. injection L as L <-.
    exists (Word w). split; [|cbn [name_token]; rewrite M, L; reflexivity]. pose proof (take_ident_split _ _ _ T) as E. rewrite E. apply word_lexed; [exact (take_ident_all _ _ _ T)| |exact R].
    cbn [take_ident] in T. rewrite (ident_start_continue c I) in T. destruct (take_ident s'). injection T as <- _. exact I.
Qed.
