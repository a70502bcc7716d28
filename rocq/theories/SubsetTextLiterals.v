(** What the literals written for keys denote. *)
From Coq Require Import ZifyBool ZifyNat.
From Verif Require Import GoStr GoStrFacts ModelSq SpecSql SqFacts SprintFacts HistoryFacts SpecInsert SpecTokens TokenFacts TokenReads ModelDdl ModelSubset SpecSubset ModelSubsetText SpecSubsetText.

Definition is_literal (d : dialect) (s : bytes) (v : SpecTokens.value) : Prop := read_constant d s = Some v.
Lemma single_token d s t v : lex_one d s = Some ([t], []) -> constant d [t] = Some (v, []) -> read_constant d s = Some v.
Proof.
  intros E C. unfold read_constant. rewrite (lexed_tokens d s [t]) by (apply lexed_step; exact E). cbn [andthen]. rewrite C. reflexivity.
Qed.
Lemma quoted_read d s : plain_name d s -> read_constant d (quoted_literal s) = Some (VText s).
Proof.
  intros P. apply single_token with (t := Str s); [|reflexivity]. unfold quoted_literal. change (B"'" ++ escape_quote "'" s ++ B"'") with (squote :: escape_quote squote s ++ squote :: []).
  unfold lex_one. change (is_space squote) with false. cbv iota. rewrite ceqb_refl. rewrite (lex_strlit_name d s []); [reflexivity|exact P|discriminate|intros _ []].
Qed.
Lemma hex_read d s : d <> Postgres -> d <> SQLServer -> read_constant d (hex_literal s) = Some (SpecTokens.VBytes s).
Proof.
  intros N1 N2. apply single_token with (t := Hex s); [|destruct d; cbn [constant]; congruence]. unfold hex_literal. unfold lex_one. cbn [app B]. change (is_space "x"%char) with false. cbv iota.
  change (ceqb "x" squote) with false. cbv iota. replace (ceqb "x" (id_open d)) with false by (destruct d; reflexivity). 
  change (strip_prefix ["x"%char; "'"%char] ("x"%char :: "'"%char :: hex_encode s ++ ["'"%char])) with (Some (hex_encode s ++ [squote])). cbv iota. rewrite cut_byte_app by apply hex_encode_no_quote. cbn [andthen]. rewrite hex_decode_encode. reflexivity.
Qed.
Lemma number_whole s : forallb (fun c => ident_continue c || ceqb c ".")%bool s = true -> take_number s = (s, []).
Proof. induction s as [|c s IH]; [reflexivity|]. cbn [forallb take_number]. intros H. apply andb_prop in H as [H1 H2]. rewrite H1, (IH H2). reflexivity. Qed.
Lemma digit_facts d c : is_digit c = true -> is_space c = false /\ ceqb c squote = false /\ ceqb c (id_open d) = false /\ ceqb c "x" = false /\ ident_start c = false.
Proof. intros H. destruct d; (split; [|split; [|split; [|split]]]; revert H; destruct c as [[] [] [] [] [] [] [] []]; vm_compute; congruence). Qed.
Lemma number_lex d c s : is_digit c = true -> forallb (fun c => ident_continue c || ceqb c ".")%bool s = true -> lex_one d (c :: s) = Some ([Num (c :: s)], []).
Proof.
  intros H Hs. destruct (digit_facts d c H) as (A1 & A2 & A3 & A4 & A5). unfold lex_one. rewrite A1, A2, A3, A5, H.
  replace (strip_prefix (B"x'") (c :: s)) with (@None bytes) by (symmetry; cbn [strip_prefix B]; change (ceqb "x" c) with (Ascii.eqb "x" c); rewrite Ascii.eqb_sym; change (Ascii.eqb c "x") with (ceqb c "x"); rewrite A4; reflexivity).
  rewrite number_whole; [reflexivity|]. cbn [forallb]. rewrite (digit_continue c H), Hs. reflexivity.
Qed.

Lemma digits_number s : forallb is_digit s = true -> forallb (fun c => ident_continue c || ceqb c ".")%bool s = true.
Proof. induction s as [|c s IH]; [reflexivity|]. cbn [forallb]. intros H. apply andb_prop in H as [H1 H2]. rewrite (digit_continue c H1), (IH H2). reflexivity. Qed.
Lemma not_hex c s : is_digit c = true -> strip_prefix (B"0x") (c :: s) = None \/ exists s', s = "x"%char :: s'.
Proof.
  intros H. cbn [strip_prefix B]. destruct (ceqb "0" c); [|left; reflexivity]. destruct s as [|c' s']; [left; reflexivity|]. cbn [strip_prefix]. destruct (ceqb_spec "x" c') as [<-|]; [right; eauto|left; reflexivity].
Qed.
Lemma decimal_read d w : decimal w -> read_constant d w = Some (VNum w).
Proof.
  intros (sign & a & b & -> & S & Na & Da & Hb). destruct a as [|c a]; [congruence|]. cbn [forallb] in Da. apply andb_prop in Da as [Dc Da].
  assert (Hn : forallb (fun c => ident_continue c || ceqb c ".")%bool (a ++ b) = true).
  { rewrite forallb_app, (digits_number a Da). destruct Hb as [->|(b' & -> & _ & Hb)]; [reflexivity|]. rewrite forallb_app, (digits_number b' Hb). reflexivity. }
  assert (Hx : strip_prefix (B"0x") (c :: a ++ b) = None).
  { destruct (not_hex c (a ++ b) Dc) as [X|(s' & X)]; [exact X|]. exfalso. destruct a as [|c' a]; [destruct Hb as [->|(b' & -> & _)]; discriminate X|]. injection X as -> X. discriminate Da. }
  pose proof (number_lex d c (a ++ b) Dc Hn) as L. destruct S as [->| ->].
  - apply single_token with (t := Num (c :: a ++ b)); [exact L|]. cbn [constant]. rewrite Hx. destruct d; reflexivity.
  - unfold read_constant. rewrite (lexed_tokens d _ ([Sym "-"] ++ [Num (c :: a ++ b)])).
    + reflexivity.
    + apply lexed_app with (r := c :: a ++ b); apply lexed_step; [|exact L]. change (B"-" ++ (c :: a) ++ b) with ("-"%char :: c :: a ++ b). unfold lex_one. change (is_space "-"%char) with false. change (ceqb "-" squote) with false. cbv iota.
      replace (ceqb "-" (id_open d)) with false by (destruct d; reflexivity). change (strip_prefix (B"x'") ("-"%char :: c :: a ++ b)) with (@None bytes). cbv iota. change (ident_start "-") with false. change (is_digit "-") with false. cbv iota.
      replace (comment "-" (c :: a ++ b)) with false; [reflexivity|]. cbn [comment]. destruct (ceqb_spec c "-") as [->|]; [discriminate Dc|]. cbn. reflexivity.
Qed.
Lemma Z_dec_decimal z : decimal (Z_dec z).
Proof.
  assert (D : forall n, N_dec n <> [] /\ forallb is_digit (N_dec n) = true).
  { intros n. split; [intros E; pose proof (dec_N_N_dec n) as X; rewrite E in X; discriminate X|]. apply forallb_forall. apply Forall_forall. apply N_dec_digits. }
  destruct z as [|p|p]; unfold Z_dec.
  - exists [], (N_dec 0), []. rewrite app_nil_r. destruct (D 0%N). repeat split; auto.
  - exists [], (N_dec (N.pos p)), []. rewrite app_nil_r. destruct (D (N.pos p)). repeat split; auto.
  - exists (B"-"), (N_dec (N.pos p)), []. rewrite app_nil_r. destruct (D (N.pos p)). repeat split; auto.
Qed.
Lemma Z_dec_eval z : eval_int (Z_dec z) = Some z.
Proof. apply (eval_int_sprint SQLite z). reflexivity. Qed.
Lemma hex_chars s : forallb (fun c => ident_continue c || ceqb c ".")%bool (hex_encode s) = true.
Proof.
  apply forallb_forall. intros c Ic. unfold hex_encode in Ic. apply in_flat_map in Ic as (x & _ & Ic). pose proof (cn_bound x) as Hb.
  assert (H : forall n, n < 16 -> (ident_continue (hexdigit n) || ceqb (hexdigit n) ".")%bool = true) by (intros n Hn; do 16 (destruct n as [|n]; [reflexivity|]); lia).
  destruct Ic as [<-|[<-|[]]]; apply H; [apply Nat.div_lt_upper_bound; lia|apply Nat.mod_upper_bound; lia].
Qed.
Lemma sqlserver_hex s : read_constant SQLServer (B"0x" ++ hex_encode s) = Some (SpecTokens.VBytes s).
Proof.
  apply single_token with (t := Num (B"0x" ++ hex_encode s)).
  - change (B"0x" ++ hex_encode s) with ("0"%char :: "x"%char :: hex_encode s). apply number_lex; [reflexivity|]. cbn [forallb]. rewrite hex_chars. reflexivity.
  - cbn [constant]. rewrite strip_prefix_app, hex_decode_encode. reflexivity.
Qed.
Lemma time_plain d s : forallb time_char s = true -> plain_name d s /\ ~ In "."%char s.
Proof.
  intros H. rewrite forallb_forall in H. split; [split|].
  - intros (a & c & b & ->). specialize (H squote). rewrite in_app_iff in H. specialize (H (or_intror (or_introl eq_refl))). discriminate H.
  - intros _ I. apply H in I. discriminate I.
  - intros I. apply H in I. discriminate I.
Qed.
Lemma scan_kind_other d ty : d <> SQLite -> scan_kind d ty =
  if bmem ty bytes_types then KindBytes else if bmem ty bool_types then KindBool else if bmem ty float_types then KindFloat else if bmem ty int_types then KindInt else if bmem ty time_types then KindTime else KindString.
Proof. intros N. unfold scan_kind. replace (dialect_eqb d SQLite) with false by (destruct d; [congruence|reflexivity..]). reflexivity. Qed.
Lemma quoted_literal_escape s : B"'" ++ escape_quote "'" s ++ B"'" = quoted_literal s.
Proof. reflexivity. Qed.
(** The literals written for values that are faithful. *)
Lemma literal_denotes parses d ty k sc : scan_key d ty k = Some sc -> faithful parses d ty k -> denotes d ty (key_literal parses d ty sc) k.
Proof.
  intros Sk F. unfold denotes.
  assert (Hnull : exists v, read_constant d (B"NULL") = Some v /\ stands_for d ty v KvNull).
  { exists VNull. split; [|exact I]. destruct d; vm_compute; reflexivity. }
  destruct (dialect_eqb d SQLite) eqn:Ed.
  - assert (d = SQLite) as -> by (destruct d; [reflexivity|discriminate Ed..]). unfold scan_key in Sk. change (scan_kind SQLite ty) with KindString in Sk. cbn [dialect_eqb] in Sk.
    destruct k as [|z|w|s|s|b|sec ns]; try discriminate Sk; injection Sk as <-; cbn [key_literal]; cbn [faithful] in F; unfold string_literal; cbn [dialect_eqb].
    + exact Hnull.
    + specialize (F eq_refl). exists (VNum (Z_dec z)). split; [|exact (Z_dec_eval z)].
      assert (X : bmem ty sqlite_blobs = false). { apply bmem_not_In. intros X. clear - F X. cbn in F, X. repeat (destruct F as [<-|F]; [repeat (destruct X as [X|X]; [discriminate X|]); exact X|]). exact F. }
      rewrite X. replace (bmem ty sqlite_raw) with true by (symmetry; apply bmem_In; exact F). apply decimal_read, Z_dec_decimal.
    + destruct F as [Dw F]. specialize (F eq_refl). exists (VNum w). split; [|reflexivity].
      assert (X : bmem ty sqlite_blobs = false). { apply bmem_not_In. intros X. clear - F X. cbn in F, X. repeat (destruct F as [<-|F]; [repeat (destruct X as [X|X]; [discriminate X|]); exact X|]). exact F. }
      rewrite X. replace (bmem ty sqlite_raw) with true by (symmetry; apply bmem_In; exact F). apply decimal_read, Dw.
    + destruct F as (F1 & F2 & F3 & F4). destruct (F4 eq_refl) as (G1 & G2 & G3 & G4). exists (VText s). split; [|split; [reflexivity|discriminate]].
      replace (bmem ty sqlite_blobs) with false by (symmetry; apply bmem_not_In; exact G1). replace (bmem ty sqlite_raw) with false by (symmetry; apply bmem_not_In; exact G2).
      replace (beqb ty (B"UUID") && (List.length s =? 16)) with false.
      2:{ symmetry. destruct (beqb_spec ty (B"UUID")) as [E|]; [|reflexivity]. cbn [andb]. apply Nat.eqb_neq. exact (G3 E). }
      replace (bmem ty time_types && parses s) with false; [apply quoted_read; split; [exact F1|exact F2]|].
      symmetry. destruct (bmem ty time_types) eqn:Et; [|reflexivity]. cbn [andb]. apply G4. apply bmem_In. exact Et.
    + destruct F as [_ F]. exists (SpecTokens.VBytes s). split; [|reflexivity]. destruct (F eq_refl) as [F'|[-> F']].
      * replace (bmem ty sqlite_blobs) with true by (symmetry; apply bmem_In; exact F'). apply hex_read; discriminate.
      * rewrite F'. cbn -[hex_literal read_constant]. apply hex_read; discriminate.
  - assert (Nd : d <> SQLite) by (intros ->; discriminate Ed). unfold scan_key in Sk. rewrite (scan_kind_other d ty Nd), Ed in Sk.
    destruct (bmem ty bytes_types); [|destruct (bmem ty bool_types); [|destruct (bmem ty float_types); [|destruct (bmem ty int_types); [|destruct (bmem ty time_types)]]]];
      destruct k as [|z|w|s|s|b|sec ns]; try discriminate Sk; injection Sk as <-; cbn [key_literal]; cbn [faithful] in F; try exact Hnull.
    + destruct F as [Np _]. exists (SpecTokens.VBytes s). split; [|reflexivity]. destruct d; try congruence; [apply hex_read; discriminate|apply sqlserver_hex|apply hex_read; discriminate].
    + destruct d; [congruence| | | |]; destruct b; solve [eexists; split; [vm_compute; reflexivity|vm_compute; auto]].
    + destruct F as [Dw _]. exists (VNum w). split; [apply decimal_read, Dw|reflexivity].
    + exists (VNum (Z_dec z)). split; [apply decimal_read, Z_dec_decimal|exact (Z_dec_eval z)].
    + destruct F as (Np & Ht & ->). exists (VText sec). destruct (time_plain d sec Ht) as [Pl Nd']. split.
      * change (0 mod 1000000 =? 0)%N with true. cbn [negb]. replace (B"'" ++ sec ++ B"'") with (quoted_literal sec); [apply quoted_read; exact Pl|]. unfold quoted_literal.
        replace (escape_quote "'" sec) with sec; [reflexivity|]. symmetry. assert (Nq : ~ In squote sec) by (intros X; rewrite forallb_forall in Ht; apply Ht in X; discriminate X). clear - Nq.
        induction sec as [|c sec IH]; [reflexivity|]. cbn [escape_quote]. destruct (ceqb_spec c "'") as [->|]; [destruct Nq; left; reflexivity|]. rewrite IH; [reflexivity|]. intros X. apply Nq. right. exact X.
      * cbn [stands_for]. split; [exact Np|]. unfold read_time. replace (cut_byte "." sec) with (@None (bytes * bytes)); [reflexivity|]. symmetry. destruct (cut_byte "." sec) as [[x y]|] eqn:E; [|reflexivity]. apply cut_byte_Some in E as [E _]. destruct Nd'. rewrite E. apply in_or_app. right. left. reflexivity.
    + destruct F as (F1 & F2 & F3 & _). exists (VText s). split; [|split; [reflexivity|exact F3]]. unfold string_literal. rewrite Ed. apply quoted_read. split; assumption.
Qed.
(** A time with a fraction of a second is never written as it is. *)
Lemma digit_read n : (n < 10)%N -> is_digit (digit n) = true /\ digit_val (digit n) = n.
Proof. intros H. assert (E : exists k, k < 10 /\ n = N.of_nat k) by (exists (N.to_nat n); lia). destruct E as (k & Hk & ->). do 10 (destruct k as [|k]; [split; reflexivity|]). lia. Qed.
Lemma millis_fraction ns : (ns < 1000000000)%N -> fraction (millis ns) 100000000 = Some (ns / 1000000 * 1000000)%N.
Proof.
  intros H. unfold millis. set (ms := (ns / 1000000)%N). assert (Hm : (ms < 1000)%N) by (unfold ms; apply N.div_lt_upper_bound; lia). clearbody ms.
  assert (H1 : (ms / 100 < 10)%N) by (apply N.div_lt_upper_bound; lia). assert (H2 : (ms / 10 mod 10 < 10)%N) by (apply N.mod_upper_bound; lia). assert (H3 : (ms mod 10 < 10)%N) by (apply N.mod_upper_bound; lia).
  cbn [map fraction]. destruct (digit_read _ H1) as [-> ->]. destruct (digit_read _ H2) as [-> ->]. destruct (digit_read _ H3) as [-> ->]. cbn [andthen].
  change (100000000 / 10)%N with 10000000%N. change (10000000 / 10)%N with 1000000%N. f_equal.
  pose proof (N.div_mod ms 10 ltac:(lia)). pose proof (N.div_mod (ms / 10) 10 ltac:(lia)). rewrite N.div_div in H4 by lia. change (10 * 10)%N with 100%N in H4. lia.
Qed.
Lemma millis_length ns : List.length (millis ns) = 3.
Proof. reflexivity. Qed.
Lemma fraction_lost parses d ty second ns : forallb time_char second = true -> (0 < ns < 1000000000)%N -> ~ denotes d ty (key_literal parses d ty (STime (Some (second, ns)))) (KvTime second ns).
Proof.
  intros Ht Hn (v & R & S). cbn [key_literal] in R. destruct (time_plain d second Ht) as [Pl Nd]. assert (Nq : ~ In squote second) by (intros X; rewrite forallb_forall in Ht; apply Ht in X; discriminate X).
  assert (Es : forall s, ~ In squote s -> ~ In backslash s -> B"'" ++ s ++ B"'" = quoted_literal s /\ plain_name d s).
  { intros s N N'. split.
    - unfold quoted_literal. replace (escape_quote "'" s) with s; [reflexivity|]. clear - N. symmetry. induction s as [|c s IH]; [reflexivity|]. cbn [escape_quote]. destruct (ceqb_spec c "'") as [->|]; [destruct N; left; reflexivity|]. rewrite IH; [reflexivity|]. intros X. apply N. right. exact X.
    - split; [intros (a & c & b & ->); apply N; apply in_or_app; right; left; reflexivity|intros _; exact N']. }
  assert (Nb : ~ In backslash second) by (intros X; rewrite forallb_forall in Ht; apply Ht in X; discriminate X).
  destruct (ns mod 1000000 =? 0)%N eqn:E; cbn [negb] in R.
  - destruct (Es second Nq Nb) as [E0 P]. rewrite E0, (quoted_read d second P) in R. injection R as <-. cbn [stands_for] in S. destruct S as [_ S]. unfold read_time in S. destruct (cut_byte "." second) as [[x y]|] eqn:C.
    + apply cut_byte_Some in C as [C _]. destruct Nd. rewrite C. apply in_or_app. right. left. reflexivity.
    + injection S as S. lia.
  - assert (Md : forall c, In c (millis ns) -> is_digit c = true).
    { unfold millis. set (ms := (ns / 1000000)%N). assert (Hm : (ms < 1000)%N) by (unfold ms; apply N.div_lt_upper_bound; lia). intros c [<-|[<-|[<-|[]]]]; apply digit_read; [apply N.div_lt_upper_bound; lia|apply N.mod_upper_bound; lia..]. }
    replace (B"'" ++ second ++ B"." ++ millis ns ++ B"'") with (B"'" ++ (second ++ B"." ++ millis ns) ++ B"'") in R by (rewrite <- !app_assoc; reflexivity).
    destruct (Es (second ++ B"." ++ millis ns)) as [E1 P].
    + intros X. apply in_app_iff in X as [X|[X|X]]; [exact (Nq X)|discriminate X|]. apply Md in X. discriminate X.
    + intros X. apply in_app_iff in X as [X|[X|X]]; [exact (Nb X)|discriminate X|]. apply Md in X. discriminate X.
    + rewrite E1, (quoted_read d _ P) in R. injection R as <-. cbn [stands_for] in S. destruct S as [_ S]. unfold read_time in S. rewrite cut_byte_app in S by exact Nd. rewrite millis_length in S. change (9 <? 3) with false in S. cbv iota in S.
      rewrite millis_fraction in S by lia. cbn [andthen] in S. injection S as S. apply N.eqb_neq in E. pose proof (N.div_mod ns 1000000 ltac:(lia)). lia.
Qed.
