(** Columns that fill themselves: facts. *)
From Verif Require Import GoStr GoStrFacts ModelSq SpecSql SqFacts SpecInsert SpecTokens TokenFacts TokenReads SpecDdl ModelDdl ModelCatalog ModelDiff ModelDiffSql ModelDdlText SpecDdlText DdlTokens DdlColumns ModelAnnotate ModelParser SpecDefault DefaultFacts ModelFilling SpecFilling.
From Verif Require SubsetTextLiterals.
From Coq Require Import ZifyBool ZifyNat.

Lemma unescape_escaped x : unescape_quotes (replace_byte squote (B"\'") x) = x.
Proof.
  induction x as [|c x IH]; [reflexivity|]. unfold replace_byte in *. cbn [flat_map]. destruct (ceqb_spec c squote) as [->|N].
  - match goal with |- unescape_quotes (_ ++ ?r) = _ => change (unescape_quotes (B"\'" ++ r)) with (squote :: unescape_quotes r) end. rewrite IH. reflexivity.
  - cbn [app]. destruct x as [|y x]; [reflexivity|]. cbn [unescape_quotes].
    destruct (flat_map _ (y :: x)) as [|z r] eqn:F.
    + cbn [flat_map] in F. destruct (ceqb y squote); discriminate F.
    + assert (ceqb z squote = false) as ->; [|rewrite andb_false_r; rewrite IH; reflexivity].
      cbn [flat_map] in F. destruct (ceqb_spec y squote) as [->|N']; [injection F as <- _; reflexivity|]. injection F as <- _. apply ceqb_neq. exact N'.
Qed.

(** ** EXTRA *)
Lemma fold_length a b : equal_fold a b = true -> List.length a = List.length b.
Proof. unfold equal_fold. destruct (beqb_spec (to_lower a) (to_lower b)) as [E|]; [|discriminate]. intros _. apply (f_equal (@List.length ascii)) in E. unfold to_lower in E. rewrite !map_length in E. exact E. Qed.
Lemma fold_shorter a b : List.length b < List.length a -> equal_fold a b = false.
Proof. intros L. destruct (equal_fold a b) eqn:E; [apply fold_length in E; lia|reflexivity]. Qed.
Lemma fold_head x a y b : to_lower_c x <> to_lower_c y -> equal_fold (x :: a) (y :: b) = false.
Proof. intros N. unfold equal_fold. destruct (beqb_spec (to_lower (x :: a)) (to_lower (y :: b))) as [E|]; [|reflexivity]. injection E as E _. contradiction. Qed.
Definition mysql_ (e : engine) : Prop := spoken e = MySQL.
Lemma extra_auto e t h f : mysql_ e -> (f = Counter -> t = false) -> equal_fold (extra e t h f) (B"auto_increment") = match f with Counter => negb h | _ => false end.
Proof.
  intros M T. destruct f as [| |a s n|x st|n].
  1-4: try rewrite (T eq_refl); destruct e; try discriminate M; try destruct t; destruct h; try destruct st; reflexivity.
  destruct e; try discriminate M; destruct t, h; apply fold_head; discriminate.
Qed.
Lemma extra_stored e t h f : mysql_ e -> (forall x st, f = Computed x st -> t = false) ->
  equal_fold (extra e t h f) (B"STORED GENERATED") = match f with Computed _ st => st && negb h | _ => false end.
Proof.
  intros M T. destruct f as [| |a s n|x st|n].
  1-4: try rewrite (T _ _ eq_refl); destruct e; try discriminate M; try destruct t; destruct h; try destruct st; reflexivity.
  destruct e; try discriminate M; destruct t, h; apply fold_head; discriminate.
Qed.
Lemma extra_stamp e t h f : mysql_ e ->
  equal_fold (extra e t h f) (B"DEFAULT_GENERATED on update CURRENT_TIMESTAMP")
  = match f, e with Stamped n, MySQL8 => t && negb h && (n =? 0)%N | _, _ => false end.
Proof.
  intros M. destruct f as [| |a s n|x st|n].
  1-4: destruct e; try discriminate M; destruct t, h; try destruct st; reflexivity.
  destruct e; try discriminate M; try (destruct t, h; apply fold_head; discriminate).
  destruct t; [|destruct h; apply fold_head; discriminate]. destruct n as [|p]; [destruct h; reflexivity|].
  assert ((N.pos p =? 0)%N = false) as -> by lia. rewrite andb_false_r. apply fold_shorter. unfold extra, extra_word, precision.
  destruct h; cbn [app join]; rewrite !app_length; cbn [List.length B]; lia.
Qed.

(** ** Expressions *)
Lemma bare_inner ts : bare (inner ts) = bare ts.
Proof.
  unfold inner. destruct (parens expression ts) as [[x [|y r]]|] eqn:P; try reflexivity.
  destruct (parens_inv _ _ P) as (-> & W & N). symmetry. apply bare_brackets; assumption.
Qed.
Lemma wrapped_bracketed d x : fits d [] x -> bracketed d (B"(" ++ x ++ B")") /\ bare (inner (text d (B"(" ++ x ++ B")"))) = bare (text d x).
Proof.
  intros F. destruct (fits_is _ _ F) as (T & N & W). pose proof (wrapped_tokens _ _ F) as T'. split.
  - unfold bracketed. rewrite <- wrapped_is, wrapped_yes. exists (Sym "(" :: text d x ++ [Sym ")"]), (text d x). split; [exact T'|]. apply (parens_whole (text d x) []); assumption.
  - rewrite bare_inner, (text_is _ _ _ T'). apply bare_brackets; assumption.
Qed.

(** ** Identities of SQL Server *)
Definition int_toks (z : Z) : toks := if (z <? 0)%Z then [Sym "-"; Num (N_dec (Z.to_N (- z)))] else [Num (N_dec (Z.to_N z))].
Lemma dec_lex d n : Lex d (N_dec n) [Num (N_dec n)].
Proof.
  apply lexed_step. pose proof (N_dec_digits n) as F. destruct (N_dec n) as [|c s] eqn:E; [destruct (N_dec_nonempty n E)|]. inversion F as [|? ? D Ds]; subst.
  apply SubsetTextLiterals.number_lex; [exact D|]. apply SubsetTextLiterals.digits_number. apply forallb_forall. apply Forall_forall. exact Ds.
Qed.
Lemma int_lex z : Lex SQLServer (itoa z) (int_toks z).
Proof.
  unfold itoa, int_toks. destruct (z <? 0)%Z; [|apply dec_lex]. refine (lexed_app SQLServer _ [Sym "-"] _ _ [] _ (dec_lex _ _)). apply lexed_step.
  pose proof (N_dec_digits (Z.to_N (- z))) as F. destruct (N_dec (Z.to_N (- z))) as [|c s] eqn:E; [destruct (N_dec_nonempty _ E)|]. inversion F as [|? ? D Ds]; subst.
  unfold lex_one. cbn [app B]. revert D. clear. intros D. destruct c as [b0 b1 b2 b3 b4 b5 b6 b7]; destruct b0, b1, b2, b3, b4, b5, b6, b7; try (vm_compute in D; discriminate D); reflexivity.
Qed.
Lemma int_read z r : read_int (int_toks z ++ r) = Some (z, r).
Proof. unfold int_toks. destruct (Z.ltb_spec z 0); cbn [app read_int]; [change (ceqb "-" "-") with true; cbn iota|]; rewrite dec_N_N_dec; cbn [andthen]; do 2 f_equal; lia. Qed.
Definition options_of (s n : Z) : toks := if (s =? 1)%Z && (n =? 1)%Z then [] else Sym "(" :: int_toks s ++ Sym "," :: int_toks n ++ [Sym ")"].
Lemma identity_lex s n : tokens SQLServer (identity_text (Some (s, n))) = Some (Word (B"IDENTITY") :: options_of s n).
Proof.
  unfold identity_text, options_of. destruct ((s =? 1)%Z && (n =? 1)%Z); [reflexivity|]. apply lex_tokens.
  apply (lex_fixed SQLServer (B"IDENTITY(") _ [Word (B"IDENTITY"); Sym "("] _ ltac:(fix_text)). apply (lex_app SQLServer _ _ _ _ (int_lex s)); [|ending].
  apply (lex_fixed SQLServer (B", ") _ [Sym ","] _ ltac:(fix_text)). apply (lex_app SQLServer _ _ _ _ (int_lex n)); [lex_now|ending].
Qed.
Lemma whole_int k z r : whole clauses (S k) (int_toks z ++ r) = whole clauses (S k) r.
Proof. unfold int_toks. destruct (z <? 0)%Z; reflexivity. Qed.
Lemma options_whole s n : whole clauses 0 (options_of s n) = true.
Proof.
  unfold options_of. destruct ((s =? 1)%Z && (n =? 1)%Z); [reflexivity|]. cbn [whole]. change (negb ((0 =? 0) && ends_run clauses (Sym "("))) with true. cbn [andb].
  change (deeper 0 (Sym "(")) with 1. rewrite whole_int. cbn [whole]. change (deeper 1 (Sym ",")) with 1. change (negb ((1 =? 0) && ends_run clauses (Sym ","))) with true. cbn [andb].
  rewrite whole_int. reflexivity.
Qed.
Lemma options_read s n : numbers (options_of s n) = Some (s, n).
Proof.
  unfold options_of. destruct ((s =? 1)%Z && (n =? 1)%Z) eqn:E; [cbn [numbers]; do 2 f_equal; lia|].
  unfold numbers. cbn [sym]. change (ceqb "(" "(") with true. cbn [andthen]. rewrite int_read. cbn [andthen sym]. change (ceqb "," ",") with true. cbn [andthen]. rewrite int_read. reflexivity.
Qed.
Lemma whole_run l : whole clauses 0 l = true -> run clauses 0 l = (l, []).
Proof. intros W. pose proof (run_whole clauses 0 l [] W) as R. rewrite app_nil_r in R. apply R. exact I. Qed.
Lemma identity_read s n : read_identity SQLServer (Word (B"IDENTITY") :: options_of s n) = Some (Identity true (options_of s n), []).
Proof.
  unfold read_identity. change (kw (B"IDENTITY") (Word (B"IDENTITY") :: options_of s n)) with (Some (options_of s n)). cbn [andthen]. rewrite whole_run by apply options_whole. reflexivity.
Qed.
Lemma identity_fits s n : fits_identity SQLServer (identity_text (Some (s, n))).
Proof. intros _. exists (Word (B"IDENTITY") :: options_of s n), (Identity true (options_of s n)). split; [apply identity_lex|]. split; [apply identity_read|apply options_whole]. Qed.
Lemma identity_some s n : identity_of SQLServer (identity_text (Some (s, n))) = Some (Identity true (options_of s n)).
Proof. unfold identity_of. rewrite (text_is _ _ _ (identity_lex s n)), identity_read. reflexivity. Qed.

(** ** Columns *)
Lemma pg_identity_fits : fits_identity Postgres (B"GENERATED BY DEFAULT AS IDENTITY") /\ fits_identity Postgres (B"GENERATED ALWAYS AS IDENTITY").
Proof. split; intros _; eexists; eexists; (split; [vm_compute; reflexivity|split; [vm_compute; reflexivity|reflexivity]]). Qed.
Lemma no_identity d : fits_identity d [].
Proof. intros H. congruence. Qed.
Lemma fits_nonempty d x : fits d [] x -> x <> [].
Proof. intros F. exact (fits_some _ _ _ F). Qed.
Definition computed_ok (e : engine) (h : bool) (c : column) (f : filling) : Prop :=
  match f with Computed _ _ => kept e false h c f \/ spoken e = MySQL /\ (exists x, f = Computed x true /\ bracketed MySQL x) /\ col_notnull c = false | _ => True end.
Lemma read_writable e t h f c coll : possible e f -> ordinary (spoken e) t f c -> computed_ok e h c f ->
  writable_column (spoken e) coll false no_reference (read_row (shown e t h (col_default c) f) c).
Proof.
  intros P (On & Ot & Od & Oc & Of & Om) K. constructor; try discriminate.
  - destruct e; exact On.
  - destruct e; exact Ot.
  - destruct e; try exact I; cbn [spoken shown read_row with_autoincrement with_onupdate with_identity with_default with_expression col_identity].
    + destruct f as [| |a s n|x st|n]; try apply no_identity. destruct a; apply pg_identity_fits.
    + destruct f as [| |a s n|x st|n]; try apply no_identity. apply identity_fits.
  - destruct e; cbn [spoken shown read_row with_autoincrement with_onupdate with_identity with_default with_expression col_default]; try exact Of.
    destruct f as [| |a s n|x st|n]; try exact Of. destruct st; [intros N; exfalso; apply N; reflexivity|]. cbn. destruct K as [(_ & K)|(K & _)]; discriminate K.
  - intros N. exfalso. apply N. destruct e; exact Oc.
  - destruct f as [| |a s n|x st|n].
    1,2,3,5: intros N; exfalso; apply N; destruct e; reflexivity.
    intros _. cbn [possible] in P. destruct Om as (Om & ->). destruct e; cbn [computed_ok kept spoken] in K.
    1,2,3: cbn [spoken shown read_row with_autoincrement with_onupdate with_identity with_default with_expression col_default col_expr col_autoincrement col_notnull col_onupdate];
      rewrite unescape_escaped, extra_auto, extra_stamp by (reflexivity || congruence);
      (assert (bracketed MySQL x /\ col_notnull c = false) as (Kb & Kn) by (destruct K as [K|(_ & (x' & E & Kb) & Kn)]; [tauto|injection E as <-; auto]));
      auto.
    + assert (bracketed Postgres x /\ st = true) as (Kb & ->) by (destruct K as [K|(K & _)]; [tauto|discriminate K]). split; [exact Kb|reflexivity].
    + split; [apply wrapped_bracketed; exact P|]. destruct Od as [Od|Od]; [discriminate Od|]. cbn. rewrite Om, Oc. tauto.
Qed.
(** What the definition says. *)
Definition said (d : dialect) (coll : bytes) (c : column) (m : column_def) : Prop :=
  exists ts, tokens d (write_column d coll c false no_reference) = Some ts /\ read_column d ts = Some (m, []).
Lemma said_one d coll c m m' : said d coll c m -> said d coll c m' -> m = m'.
Proof. intros (ts & T & R) (ts' & T' & R'). rewrite T in T'. injection T' as <-. rewrite R in R'. injection R' as <-. reflexivity. Qed.
Lemma writable_said d coll c : d <> Other -> writable_column d coll false no_reference c -> said d coll c (column_meant d coll false no_reference c).
Proof.
  intros D W. destruct (column_reads d coll false no_reference c D W) as (ts & L & R). exists (ntok d (col_name c) :: ts). split; [apply lex_tokens; exact L|].
  destruct (R [] eq_refl) as (_ & X). rewrite app_nil_r in X. exact X.
Qed.
Lemma spoken_known e : spoken e <> Other.
Proof. destruct e; discriminate. Qed.
