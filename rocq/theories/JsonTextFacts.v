(** Every text that RFC 8259 allows is read as the tree it stands for. *)
From Coq Require Import Lia ZifyN ZifyBool.
From Verif Require Import GoStr GoStrFacts ModelArray SpecArray ArrayFacts ModelJson SpecJson JsonFacts SpecJsonText.

(** ** Strings *)
Lemma hex_value_iff c i : nth_error lower_hex i = Some c \/ nth_error upper_hex i = Some c -> ModelJson.hex_value c = Some (N.of_nat i).
Proof.
  intros [E|E]; unfold lower_hex, upper_hex in E; (do 16 (destruct i as [|i]; [injection E as <-; reflexivity|])); destruct i; discriminate E.
Qed.
Lemma hexes_S k n s : hexes (S k) n s -> exists n0 s0 c v, hexes k n0 s0 /\ s = s0 ++ [c] /\ ModelJson.hex_value c = Some v /\ n = (16 * n0 + v)%N.
Proof. intros H. inversion H as [|? n0 s0 i c H0 E]; subst. exists n0, s0, c, (N.of_nat i). repeat split; [exact H0|apply hex_value_iff, E]. Qed.
Lemma hex4_read n h r : hexes 4 n h -> hex4 (h ++ r) = Some (n, r).
Proof.
  intros H. apply hexes_S in H. destruct H as (n3 & s3 & d & vd & H & -> & D & ->). apply hexes_S in H. destruct H as (n2 & s2 & c & vc & H & -> & C & ->).
  apply hexes_S in H. destruct H as (n1 & s1 & b & vb & H & -> & Hb & ->). apply hexes_S in H. destruct H as (n0 & s0 & a & va & H & -> & A & ->). inversion H; subst.
  cbn [app hex4]. rewrite A, Hb, C, D. do 2 f_equal. lia.
Qed.
Lemma rune_bytes_char n : rune_bytes n = char_bytes n.
Proof. unfold rune_bytes, char_bytes. repeat destruct (_ <? _)%N; reflexivity. Qed.
Lemma read_escape e f s o r : escaped s = Some (o, r) -> e = backslash -> text_rest (S f) (e :: s) = prepend o (text_rest f r).
Proof. intros E ->. cbn [text_rest]. change (ceqb backslash dquote) with false. change (ceqb backslash backslash) with true. cbv iota zeta. rewrite E. reflexivity. Qed.
Lemma escaped_u s n r : hex4 s = Some (n, r) -> scalar n -> escaped ("u"%char :: s) = Some (char_bytes n, r).
Proof.
  intros H S. unfold escaped. change (ceqb "u" dquote || ceqb "u" backslash || ceqb "u" "/") with false. change (ceqb "u" "b") with false. change (ceqb "u" "f") with false.
  change (ceqb "u" "n") with false. change (ceqb "u" "r") with false. change (ceqb "u" "t") with false. change (ceqb "u" "u") with true. cbv iota. rewrite H.
  destruct ((55296 <=? n)%N && (n <=? 57343)%N) eqn:E; [unfold scalar in S; lia|]. rewrite rune_bytes_char. reflexivity.
Qed.
Lemma escaped_pair s high s' low r : hex4 s = Some (55296 + high, backslash :: "u"%char :: s')%N -> (high < 1024)%N -> hex4 s' = Some (56320 + low, r)%N -> (low < 1024)%N ->
  escaped ("u"%char :: s) = Some (char_bytes (65536 + high * 1024 + low), r).
Proof.
  intros H R H' R'. unfold escaped. change (ceqb "u" dquote || ceqb "u" backslash || ceqb "u" "/") with false. change (ceqb "u" "b") with false. change (ceqb "u" "f") with false.
  change (ceqb "u" "n") with false. change (ceqb "u" "r") with false. change (ceqb "u" "t") with false. change (ceqb "u" "u") with true. cbv iota. rewrite H.
  destruct ((55296 <=? 55296 + high)%N && (55296 + high <=? 57343)%N) eqn:E; [|lia]. rewrite H'.
  destruct ((55296 + high <=? 56319)%N && (56320 <=? 56320 + low)%N && (56320 + low <=? 57343)%N) eqn:E'; [|lia]. rewrite rune_bytes_char. change (ceqb backslash backslash && ceqb "u" "u") with true. cbv iota. replace (55296 + high - 55296)%N with high by lia. replace (56320 + low - 56320)%N with low by lia. reflexivity.
Qed.
Lemma char_read c n f s : json_char c n -> text_rest (S f) (c ++ s) = prepend (char_bytes n) (text_rest f s).
Proof.
  intros [n' S L Q K|e n' I|n' h H S|high low h l H R H' R'].
  - destruct (n' <? 128)%N eqn:A.
    + unfold char_bytes. rewrite A. cbn [app text_rest]. set (a := ascii_of_N n'). assert (V : bv a = n') by (apply bv_of; lia).
      assert (ceqb a dquote = false) as -> by (destruct (ceqb_spec a dquote) as [E|]; [rewrite E in V; vm_compute in V; congruence|reflexivity]).
      assert (ceqb a backslash = false) as -> by (destruct (ceqb_spec a backslash) as [E|]; [rewrite E in V; vm_compute in V; congruence|reflexivity]).
      cbn [rune_len]. rewrite V, A. destruct (n' <? 32)%N eqn:W; [lia|]. reflexivity.
    + pose proof (rune_char n' s S) as E. assert (X : exists a r, char_bytes n' = a :: r /\ (bv a <? 128)%N = false).
      { unfold char_bytes, scalar in *. rewrite A. destruct (n' <? 2048)%N eqn:C; [|destruct (n' <? 65536)%N eqn:D]; do 2 eexists; (split; [reflexivity|]); rewrite bv_of by lia; lia. }
      destruct X as (a & r & X & V). rewrite X in *. apply read_raw; assumption.
  - unfold short_escapes in I. repeat (destruct I as [I|I]; [injection I as <- <-; reflexivity|]). destruct I.
  - cbn [app]. apply read_escape; [|reflexivity]. apply escaped_u; [apply hex4_read, H|exact S].
  - rewrite <- app_assoc. cbn [app]. apply read_escape; [|reflexivity]. eapply escaped_pair; [apply hex4_read, H|exact R|apply hex4_read, H'|exact R'].
Qed.
Lemma char_some_text c n : json_char c n -> (1 <= List.length c)%nat.
Proof. intros [n' _ _ _ _|e n' _|n' h _ _|high low h l _ _ _ _]; [destruct (char_some n') as (a & r & ->)| | |]; cbn [List.length app]; lia. Qed.
Lemma text_read s l : json_text s l -> forall f r, (List.length s < f)%nat -> text_rest f (s ++ dquote :: r) = Some (flat_map char_bytes l, r).
Proof.
  induction 1 as [|c n s l C T IH]; intros f r L; (destruct f as [|f]; [lia|]); [reflexivity|].
  pose proof (char_some_text c n C). rewrite app_length in L. rewrite <- app_assoc, (char_read c n f _ C), IH by lia. reflexivity.
Qed.
Lemma read_text_json s l r : json_text s l -> read_text (s ++ dquote :: r) = Some (flat_map char_bytes l, r).
Proof. intros T. apply text_read; [exact T|]. rewrite app_length. lia. Qed.

(** ** Blanks *)
Lemma blank_ws c : In (N_of_ascii c) [32; 9; 10; 13]%N -> is_ws c = true.
Proof. destruct c as [[] [] [] [] [] [] [] []]; cbv; intros I; repeat (destruct I as [I|I]; [discriminate I || reflexivity|]); destruct I. Qed.
Lemma skip_blank w s : blank w -> skip_ws (w ++ s) = skip_ws s.
Proof. induction w as [|c w IH]; intros H; [reflexivity|]. cbn [app skip_ws]. rewrite (blank_ws c (H c (or_introl eq_refl))). apply IH. intros x I. apply H. right. exact I. Qed.
Lemma follows_blank w s : blank w -> follows s -> follows (w ++ s).
Proof. destruct w as [|c w]; intros H F; [exact F|]. cbn [app follows]. unfold in_word. rewrite (blank_ws c (H c (or_introl eq_refl))). reflexivity. Qed.

(** ** Documents *)
Scheme value_text_ind2 := Minimality for value_text Sort Prop
  with items_text_ind2 := Minimality for items_text Sort Prop
  with members_text_ind2 := Minimality for members_text Sort Prop.
Combined Scheme texts_ind from value_text_ind2, items_text_ind2, members_text_ind2.
Lemma value_head s j : value_text s j -> exists c r, s = c :: r /\ is_ws c = false /\ ceqb c "]" = false /\ ceqb c "}" = false.
Proof.
  intros [ | | |z|t l _|w _|t l _|w _|t l _]; try (do 2 eexists; split; [reflexivity|]; repeat split; reflexivity).
  destruct (Z_dec_some z) as (c & r & E). exists c, r. split; [exact E|]. pose proof (dec_word z) as W. rewrite E in W. inversion W as [|? ? Hc]; subst.
  destruct c as [[] [] [] [] [] [] [] []]; vm_compute in Hc; try discriminate Hc; repeat split; reflexivity.
Qed.
Lemma items_head s l r : items_text s l -> exists c t, skip_ws (s ++ r) = c :: t /\ ceqb c "]" = false.
Proof.
  intros [w s0 w' j Hw V _|w s0 w' j q l' Hw V _ _]; destruct (value_head _ _ V) as (c & t & -> & W & K & _); rewrite <- !app_assoc, skip_blank by exact Hw; cbn [app skip_ws]; rewrite W; eauto.
Qed.
Lemma members_head s l r : members_text s l -> exists t, skip_ws (s ++ r) = dquote :: t.
Proof. intros [w k n w1 w2 s0 w' j Hw _ _ _ _ _|w k n w1 w2 s0 w' j q l' Hw _ _ _ _ _ _]; rewrite <- !app_assoc, skip_blank by exact Hw; cbn [app skip_ws]; change (is_ws dquote) with false; cbv iota; eauto. Qed.
Lemma tree_blank f w s : blank w -> tree_at f (w ++ s) = tree_at f s.
Proof. intros H. apply tree_at_skip, skip_blank, H. Qed.
Lemma texts_read :
  (forall s j, value_text s j -> forall f r, (List.length s <= f)%nat -> follows r -> tree_at f (s ++ r) = Some (j, r)) /\
  (forall s l, items_text s l -> forall f r, (List.length s < f)%nat -> items f (s ++ B"]" ++ r) = Some (l, r)) /\
  (forall s l, members_text s l -> forall f r, (List.length s < f)%nat -> members f (s ++ B"}" ++ r) = Some (l, r)).
Proof.
  apply texts_ind.
  - intros f r L F. destruct f as [|f]; [cbn in L; lia|]. apply read_word; [repeat constructor|discriminate|exact F|reflexivity].
  - intros f r L F. destruct f as [|f]; [cbn in L; lia|]. apply read_word; [repeat constructor|discriminate|exact F|reflexivity].
  - intros f r L F. destruct f as [|f]; [cbn in L; lia|]. apply read_word; [repeat constructor|discriminate|exact F|reflexivity].
  - intros z f r L F. destruct (Z_dec_some z) as (c & w & E). destruct f as [|f]; [rewrite E in L; cbn in L; lia|].
    apply read_word; [apply dec_word|rewrite E; discriminate|exact F|apply word_number].
  - intros s l T f r L F. destruct f as [|f]; [cbn in L; lia|]. cbn [app tree_at]. rewrite head_skip by reflexivity. change (ceqb dquote dquote) with true. cbv iota.
    rewrite <- app_assoc. cbn [app]. rewrite (read_text_json s l r T). reflexivity.
  - intros w Hw f r L F. destruct f as [|f]; [cbn in L; lia|]. cbn [app tree_at]. rewrite head_skip by reflexivity. change (ceqb "[" dquote) with false. change (ceqb "[" "[") with true. cbv iota.
    rewrite <- app_assoc, skip_blank by exact Hw. reflexivity.
  - intros s l I IH f r L F. destruct f as [|f]; [cbn in L; lia|]. cbn [List.length] in L. rewrite app_length in L. cbn [List.length B list_ascii_of_string] in L. cbn [app tree_at]. rewrite head_skip by reflexivity.
    change (ceqb "[" dquote) with false. change (ceqb "[" "[") with true. cbv iota. rewrite <- app_assoc. destruct (items_head s l (B"]" ++ r) I) as (c & t & -> & ->). rewrite IH by lia. reflexivity.
  - intros w Hw f r L F. destruct f as [|f]; [cbn in L; lia|]. cbn [app tree_at]. rewrite head_skip by reflexivity. change (ceqb "{" dquote) with false. change (ceqb "{" "[") with false. change (ceqb "{" "{") with true. cbv iota.
    rewrite <- app_assoc, skip_blank by exact Hw. reflexivity.
  - intros s l I IH f r L F. destruct f as [|f]; [cbn in L; lia|]. cbn [List.length] in L. rewrite app_length in L. cbn [List.length B list_ascii_of_string] in L. cbn [app tree_at]. rewrite head_skip by reflexivity.
    change (ceqb "{" dquote) with false. change (ceqb "{" "[") with false. change (ceqb "{" "{") with true. cbv iota. rewrite <- app_assoc. destruct (members_head s l (B"}" ++ r) I) as (t & ->).
    change (ceqb dquote "}") with false. cbv iota. rewrite IH by lia. reflexivity.
  - intros w s w' j Hw V IH Hw' f r L. destruct f as [|f]; [lia|]. rewrite !app_length in L. cbn [items]. rewrite <- !app_assoc, tree_blank by exact Hw.
    rewrite IH; [|lia|apply follows_blank; [exact Hw'|reflexivity]]. rewrite skip_blank by exact Hw'. reflexivity.
  - intros w s w' j r0 l Hw V IH Hw' I IHi f r L. destruct f as [|f]; [lia|]. rewrite !app_length in L. cbn [List.length B list_ascii_of_string] in L. cbn [items]. rewrite <- !app_assoc, tree_blank by exact Hw.
    rewrite IH; [|lia|apply follows_blank; [exact Hw'|reflexivity]]. rewrite skip_blank by exact Hw'. change (skip_ws (B"," ++ ?x)) with (","%char :: x). change (ceqb "," ",") with true. cbv iota. rewrite IHi by lia. reflexivity.
  - intros w k n w1 w2 s w' j Hw K Hw1 Hw2 V IH Hw' f r L. destruct f as [|f]; [lia|]. rewrite !app_length in L. cbn [members]. rewrite <- !app_assoc, skip_blank by exact Hw. cbn [app]. rewrite head_skip by reflexivity.
    change (ceqb dquote dquote) with true. cbv iota. rewrite <- app_assoc. cbn [app]. rewrite (read_text_json k n _ K). rewrite skip_blank by exact Hw1. change (skip_ws (B":" ++ ?x)) with (":"%char :: x). change (ceqb ":" ":") with true. cbv iota.
    rewrite tree_blank by exact Hw2. rewrite IH; [|lia|apply follows_blank; [exact Hw'|reflexivity]]. rewrite skip_blank by exact Hw'. reflexivity.
  - intros w k n w1 w2 s w' j r0 l Hw K Hw1 Hw2 V IH Hw' M IHm f r L. destruct f as [|f]; [lia|]. rewrite !app_length in L. cbn [List.length B list_ascii_of_string] in L. cbn [members]. rewrite <- !app_assoc, skip_blank by exact Hw. cbn [app]. rewrite head_skip by reflexivity.
    change (ceqb dquote dquote) with true. cbv iota. rewrite <- app_assoc. cbn [app]. rewrite (read_text_json k n _ K). rewrite skip_blank by exact Hw1. change (skip_ws (B":" ++ ?x)) with (":"%char :: x). change (ceqb ":" ":") with true. cbv iota.
    rewrite tree_blank by exact Hw2. rewrite IH; [|lia|apply follows_blank; [exact Hw'|reflexivity]]. rewrite skip_blank by exact Hw'. change (skip_ws (B"," ++ ?x)) with (","%char :: x). change (ceqb "," ",") with true. cbv iota. rewrite IHm by lia. reflexivity.
Qed.
Lemma document_read s j : document s j -> exists r, tree_at (S (List.length s)) s = Some (j, r).
Proof.
  intros [w s0 j0 w' Hw V Hw']. exists w'. rewrite tree_blank by exact Hw. apply (proj1 texts_read); [exact V|rewrite !app_length; lia|].
  rewrite <- (app_nil_r w'). apply follows_blank; [exact Hw'|exact Logic.I].
Qed.
