(** Facts about texts that are not UTF-8: every byte at which no character begins is read back as U+FFFD. *)
From Coq Require Import Lia ZifyN ZifyBool.
From Verif Require Import GoStr GoStrFacts ModelJson SpecJson JsonFacts.
Ltac Zify.zify_post_hook ::= Z.to_euclidean_division_equations.

Lemma bv_byte : forall a, (bv a < 256)%N.
Proof. intros [[] [] [] [] [] [] [] []]; vm_compute; reflexivity. Qed.
Lemma of_bv : forall a n, n = bv a -> ascii_of_N n = a.
Proof. intros a n ->. apply ascii_N_embedding. Qed.
(** Where a length is found, a character begins. *)
Lemma rune_some : forall s, rune_len s <> 0 -> exists n r, scalar n /\ s = char_bytes n ++ r.
Proof.
  intros s H. destruct s as [|a s]; [contradiction H; reflexivity|]. cbn [rune_len] in H. pose proof (bv_byte a) as Ba.
  destruct (bv a <? 128)%N eqn:A.
  { exists (bv a), s. split; [unfold scalar; lia|]. unfold char_bytes. rewrite A, (of_bv a) by reflexivity. reflexivity. }
  destruct s as [|b s]; [congruence|]. pose proof (bv_byte b) as Bb. destruct (two a b) eqn:T.
  { unfold two, cont, within in T. exists ((bv a - 192) * 64 + (bv b - 128))%N, s. split; [unfold scalar; lia|]. unfold char_bytes.
    match goal with |- context [(?x <? 128)%N] => assert ((x <? 128)%N = false) as -> by lia; assert ((x <? 2048)%N = true) as -> by lia end.
    rewrite (of_bv a), (of_bv b) by lia. reflexivity. }
  destruct s as [|c s]; [congruence|]. pose proof (bv_byte c) as Bc. destruct (three a b c) eqn:T3.
  { clear H T. unfold three, cont, within in T3. exists ((bv a - 224) * 4096 + (bv b - 128) * 64 + (bv c - 128))%N, s. split; [unfold scalar; lia|]. unfold char_bytes.
    match goal with |- context [(?x <? 128)%N] => assert ((x <? 128)%N = false) as -> by lia; assert ((x <? 2048)%N = false) as -> by lia; assert ((x <? 65536)%N = true) as -> by lia end.
    rewrite (of_bv a), (of_bv b), (of_bv c) by lia. reflexivity. }
  destruct s as [|d s]; [congruence|]. pose proof (bv_byte d) as Bd. destruct (four a b c d) eqn:T4; [|congruence].
  clear H T T3. unfold four, cont, within in T4. exists ((bv a - 240) * 262144 + (bv b - 128) * 4096 + (bv c - 128) * 64 + (bv d - 128))%N, s. split; [unfold scalar; lia|]. unfold char_bytes.
  match goal with |- context [(?x <? 128)%N] => assert ((x <? 128)%N = false) as -> by lia; assert ((x <? 2048)%N = false) as -> by lia; assert ((x <? 65536)%N = false) as -> by lia end.
  rewrite (of_bv a), (of_bv b), (of_bv c), (of_bv d) by lia. reflexivity.
Qed.
Lemma quote_step : forall f s, s <> [] -> quote_body (S f) s = char_text (rune_len s) s ++ quote_body f (skipn (Nat.max 1 (rune_len s)) s).
Proof. intros f [|a s] H; [contradiction H; reflexivity|]. reflexivity. Qed.
Lemma read_any : forall k s r fq f, (List.length s <= k)%nat -> (List.length s <= fq)%nat -> (List.length (quote_body fq s) < f)%nat ->
  exists s', text_rest f (quote_body fq s ++ dquote :: r) = Some (s', r) /\ mended s s'.
Proof.
  induction k as [|k IH]; intros s r fq f K Q L.
  { destruct s as [|a s]; [|cbn [List.length] in K; lia]. exists []. split; [|constructor]. destruct f as [|f]; [lia|]. destruct fq; reflexivity. }
  destruct s as [|a s].
  { exists []. split; [|constructor]. destruct f as [|f]; [lia|]. destruct fq; reflexivity. }
  destruct fq as [|fq]; [cbn [List.length] in Q; lia|]. rewrite quote_step in * by discriminate.
  destruct (Nat.eq_dec (rune_len (a :: s)) 0) as [Z|N].
  - rewrite Z in *. cbn [Nat.max skipn char_text] in *. rewrite app_length in L. cbn [List.length B] in L. destruct f as [|f]; [lia|].
    cbn [List.length] in K, Q. destruct (IH s r fq f) as (s' & T & M); [lia|lia|cbn in L; lia|]. exists (char_bytes 65533 ++ s'). split.
    + rewrite <- app_assoc. change (text_rest (S f) ((backslash :: B"ufffd") ++ quote_body fq s ++ dquote :: r)) with (prepend (char_bytes 65533) (text_rest f (quote_body fq s ++ dquote :: r))).
      rewrite T. reflexivity.
    + apply mended_byte; [|exact M]. intros n t Sn E. rewrite E, rune_char in Z by exact Sn. destruct (char_some n) as (x & y & Y). rewrite Y in Z. discriminate Z.
  - destruct (rune_some _ N) as (n & t & Sn & E). rewrite E in *. rewrite rune_char in * by exact Sn. destruct (char_some n) as (x & y & Y).
    rewrite Nat.max_r in * by (rewrite Y; cbn [List.length]; lia). rewrite skipn_len in *. pose proof (char_text_some n t) as P. rewrite app_length in L, K, Q. rewrite Y in K, Q. cbn [List.length] in K, Q.
    destruct f as [|f]; [lia|]. destruct (IH t r fq f) as (s' & T & M); [lia|lia|lia|]. exists (char_bytes n ++ s'). split.
    + rewrite <- app_assoc, read_char by exact Sn. rewrite T. reflexivity.
    + apply mended_char; assumption.
Qed.
Lemma read_quoted_any : forall s r, exists b s', quote_text s ++ r = dquote :: b /\ read_text b = Some (s', r) /\ mended s s'.
Proof.
  intros s r. destruct (read_any (List.length s) s r (List.length s) (S (List.length (quote_body (List.length s) s ++ dquote :: r)))) as (s' & T & M); [lia|lia|rewrite app_length; lia|].
  exists (quote_body (List.length s) s ++ dquote :: r), s'. split; [unfold quote_text; cbn [app]; rewrite <- app_assoc; reflexivity|]. split; [exact T|exact M].
Qed.
Lemma mended_utf8 : forall s s', mended s s' -> utf8 s'.
Proof.
  induction 1 as [|n s s' Sn M (l & F & E)|a s s' N M (l & F & E)].
  - exists []. split; [constructor|reflexivity].
  - exists (n :: l). split; [constructor; assumption|]. cbn [flat_map]. rewrite E. reflexivity.
  - exists (65533%N :: l). split; [constructor; [unfold scalar; lia|exact F]|]. cbn [flat_map]. rewrite E. reflexivity.
Qed.
Lemma mended_self : forall s, mended s s <-> utf8 s.
Proof.
  intros s. split; [apply mended_utf8|]. intros (l & F & ->). induction F as [|n l Sn F IH]; [constructor|]. cbn [flat_map]. apply mended_char; assumption.
Qed.
Lemma object_any : forall k s r f, utf8 k -> exists s', tree_at (S (S (S f))) (B"{" ++ new_line 1 ++ quote_text k ++ B": " ++ quote_text s ++ LF :: B"}" ++ r) = Some (TObject [(k, TText s')], r) /\ mended s s'.
Proof.
  intros k s r f U. destruct (read_quoted_any s (LF :: B"}" ++ r)) as (b & s' & Q & R & M). exists s'. split; [|exact M].
  destruct (read_quoted k (B": " ++ quote_text s ++ LF :: B"}" ++ r) U) as (c & Qk & Rk). rewrite Qk.
  change (tree_at (S (S (S f))) (B"{" ++ new_line 1 ++ dquote :: c)) with
    (match members (S (S f)) (new_line 1 ++ dquote :: c) with Some (l, r'') => Some (TObject l, r'') | None => None end).
  cbn [members]. change (skip_ws (new_line 1 ++ dquote :: c)) with (dquote :: c). change (ceqb dquote dquote) with true. cbv iota. rewrite Rk.
  change (skip_ws (B": " ++ ?x)) with (":"%char :: SPACE :: x). change (ceqb ":" ":") with true. cbv iota. rewrite Q.
  change (tree_at (S f) (SPACE :: dquote :: b)) with (match read_text b with Some (t, r') => Some (TText t, r') | None => None end). rewrite R. reflexivity.
Qed.
