(** Defaults are read as they are: facts. *)
From Verif Require Import GoStr GoStrFacts ModelSq SpecSql SqFacts SpecInsert SpecTokens TokenFacts TokenReads SpecDdl ModelDdl ModelCatalog ModelDiff ModelDiffSql ModelDdlText SpecDdlText DdlTokens DdlColumns DdlStatements ModelReadDefault SpecDefault.
From Verif Require SprintFacts SubsetTextLiterals.
From Coq Require Import ZifyBool ZifyNat.

(** ** Brackets *)
Lemma parens_shorter ts e : parens expression ts = Some (e, []) -> List.length ts = S (S (List.length e)).
Proof. intros H. destruct (parens_inv _ _ H) as (-> & _). cbn [List.length]. rewrite app_length. cbn [List.length]. lia. Qed.
Lemma bare_more n : forall ts, List.length ts <= n -> bare_ n ts = bare ts.
Proof.
  unfold bare. induction n as [n IH] using lt_wf_ind. intros ts L. destruct n as [|n]; [destruct ts; [reflexivity|cbn in L; lia]|].
  destruct ts as [|t r]; [reflexivity|]. cbn [List.length bare_]. destruct (parens expression (t :: r)) as [[e [|x y]]|] eqn:P; try reflexivity.
  pose proof (parens_shorter _ _ P) as S. cbn [List.length] in *. rewrite (IH n ltac:(lia) e ltac:(lia)). symmetry. apply IH; lia.
Qed.
Lemma bare_brackets ts : whole [] 0 ts = true -> ts <> [] -> bare (Sym "(" :: ts ++ [Sym ")"]) = bare ts.
Proof.
  intros W N. unfold bare at 1. cbn [List.length bare_]. rewrite (parens_whole ts [] W N). apply bare_more. rewrite app_length. lia.
Qed.
Lemma fits_is d s : fits d [] s -> tokens d s = Some (text d s) /\ text d s <> [] /\ whole [] 0 (text d s) = true.
Proof. intros H. destruct (fits_text _ _ _ H) as (L & N & W). split; [apply lex_tokens; exact L|auto]. Qed.
Lemma wrapped_tokens d s : fits d [] s -> tokens d (B"(" ++ s ++ B")") = Some (Sym "(" :: text d s ++ [Sym ")"]).
Proof.
  intros F. destruct (fits_text _ _ _ F) as (L & _). apply lex_tokens.
  apply (lex_fixed d (B"(") _ [Sym "("] _ ltac:(fix_text)). apply (lex_app d _ _ _ _ L); [lex_now|ending].
Qed.
Lemma text_is d s ts : tokens d s = Some ts -> text d s = ts.
Proof. intros H. unfold text. rewrite H. reflexivity. Qed.

Lemma wrapped_split s : wrapped_in_brackets s = true -> s = B"(" \/ exists e, s = B"(" ++ e ++ B")".
Proof.
  rewrite wrapped_is. unfold is_expression, begins_with. destruct s as [|c s]; [discriminate|]. intros H. apply andb_true_iff in H as [A C].
  destruct (ceqb_spec c "(") as [->|]; [|discriminate A]. destruct (rev s) as [|x r] eqn:R.
  - left. rewrite <- (rev_involutive s), R. reflexivity.
  - right. cbn [rev] in C. rewrite R in C. cbn [app] in C. destruct (ceqb_spec x ")") as [->|]; [|discriminate C].
    exists (rev r). rewrite <- (rev_involutive s), R. reflexivity.
Qed.
Lemma lone_bracket d : ~ fits d [] (B"(").
Proof. intros (ts & T & N & W). destruct d; vm_compute in T; injection T as <-; discriminate W. Qed.
Lemma wrapped_yes e : wrapped_in_brackets (B"(" ++ e ++ B")") = true.
Proof. rewrite wrapped_is. unfold is_expression. change (B"(" ++ e ++ B")") with ("("%char :: e ++ [")"%char]). cbn [rev]. rewrite rev_app_distr. reflexivity. Qed.
Lemma unwrap_wrapped e : unwrap_brackets (B"(" ++ e ++ B")") = e.
Proof. unfold unwrap_brackets. rewrite wrapped_yes. change (B"(" ++ e ++ B")") with ("("%char :: e ++ [")"%char]). cbn [tl]. apply removelast_last. Qed.
Lemma wrap_wrapped e : wrap_brackets (B"(" ++ e ++ B")") = B"(" ++ e ++ B")".
Proof. unfold wrap_brackets. rewrite wrapped_yes. reflexivity. Qed.
Lemma wrap_plain s : s <> [] -> wrapped_in_brackets s = false -> wrap_brackets s = B"(" ++ s ++ B")".
Proof. intros N W. unfold wrap_brackets. rewrite W. destruct s; [congruence|reflexivity]. Qed.
Lemma fits_some d stop s : fits d stop s -> s <> [].
Proof. intros (ts & T & N & _) ->. apply N. destruct d; injection T as <-; reflexivity. Qed.

(** ** Words *)
Lemma lower_ident c : ident_continue (to_lower_c c) = ident_continue c /\ ident_start (to_lower_c c) = ident_start c.
Proof. chars c; split; reflexivity. Qed.
Lemma fold_word d e w : equal_fold e w = true -> forallb ident_continue w = true -> (match w with c :: _ => ident_start c = true | [] => False end) ->
  tokens d e = Some [Word e].
Proof.
  unfold equal_fold. intros E W S. destruct (beqb_spec (to_lower e) (to_lower w)) as [L|]; [clear E|discriminate E].
  apply lexed_tokens. rewrite <- (app_nil_r e) at 1. apply word_lexed; [| |exact I].
  - assert (forall l, forallb ident_continue (to_lower l) = forallb ident_continue l) as F.
    { induction l as [|c l IH]; [reflexivity|]. cbn [to_lower map forallb]. fold (to_lower l). rewrite IH. rewrite (proj1 (lower_ident c)). reflexivity. }
    rewrite <- F, L, F. exact W.
  - destruct e as [|c e], w as [|x w]; try discriminate L; try contradiction. cbn [to_lower map] in L. injection L as L _.
    rewrite <- (proj2 (lower_ident c)), L. rewrite (proj2 (lower_ident x)). exact S.
Qed.
Lemma upper_of_lower s : to_upper (to_lower s) = to_upper s.
Proof. induction s as [|c s IH]; [reflexivity|]. cbn [to_upper to_lower map] in *. unfold to_upper, to_lower in IH. rewrite IH. f_equal. clear. chars c; reflexivity. Qed.
Lemma fold_upper e w : equal_fold e w = true -> to_upper e = to_upper w.
Proof. unfold equal_fold. destruct (beqb_spec (to_lower e) (to_lower w)) as [L|]; [|discriminate]. intros _. rewrite <- upper_of_lower, L. apply upper_of_lower. Qed.
(** The cases of isLiteral. *)
Lemma literal_cases flt s : is_literal flt s = true ->
  (exists e, s = [squote] ++ e ++ [squote]) \/ (exists w, In w words /\ equal_fold s w = true) \/ flt s = true.
Proof.
  unfold is_literal. intros H. apply orb_true_iff in H as [H|H]; [|auto]. apply orb_true_iff in H as [H|H].
  - left. apply andb_true_iff in H as [L H]. destruct s as [|c s]; [discriminate L|]. unfold last_byte in H. cbn [rev] in H.
    destruct (rev s) as [|x r] eqn:R; [apply (f_equal (@rev ascii)) in R; rewrite rev_involutive in R; subst s; discriminate L|]. cbn [app hd_error] in H.
    apply andb_true_iff in H as [A C]. destruct (ceqb_spec c squote) as [->|]; [|discriminate A]. destruct (ceqb_spec x squote) as [->|]; [|discriminate C].
    exists (rev r). apply (f_equal (@rev ascii)) in R. rewrite rev_involutive in R. rewrite R. reflexivity.
  - right. left. apply existsb_exists in H as (w & I & E). exists (B w). split; [|exact E].
    cbn [In] in I. decompose [or] I; subst; try contradiction; vm_compute; tauto.
Qed.
Lemma literal_quoted flt e : is_literal flt ([squote] ++ e ++ [squote]) = true.
Proof.
  unfold is_literal. apply orb_true_iff. left. apply orb_true_iff. left. apply andb_true_iff. split.
  - cbn [app List.length]. rewrite app_length. cbn [List.length]. apply Nat.leb_le. lia.
  - unfold last_byte. cbn [app rev]. rewrite rev_app_distr. reflexivity.
Qed.
Lemma words_lex d e w : In w words -> equal_fold e w = true -> tokens d e = Some [Word e] /\ is_word words (Word e) = true.
Proof.
  intros I E. split.
  - apply (fold_word d e w E); cbn [In words time_words] in I; decompose [or] I; subst; try contradiction; reflexivity.
  - cbn [is_word]. rewrite (fold_upper _ _ E). cbn [In words time_words] in I; decompose [or] I; subst; try contradiction; reflexivity.
Qed.

(** ** The dialects *)
Lemma gives_is d t g : t <> [] -> (exists ts v, tokens d t = Some ts /\ clause d ts = Some v /\ same v (meaning d g)) -> gives d t g.
Proof. destruct t; [congruence|]. intros _ H. exact H. Qed.
Lemma bracket_formula d s : fits d [] s -> parens expression (Sym "(" :: text d s ++ [Sym ")"]) = Some (text d s, []).
Proof. intros F. destruct (fits_is _ _ F) as (_ & N & W). apply (parens_whole _ [] W N). Qed.

Lemma sqlite_wraps e : fits SQLite [] e -> sound_brackets SQLite e -> gives SQLite (wrap_brackets e) (GivenFormula e).
Proof.
  intros F S. pose proof (fits_some _ _ _ F) as N. destruct (fits_is _ _ F) as (T & Nt & W). destruct (wrapped_in_brackets e) eqn:Wr.
  - destruct (wrapped_split _ Wr) as [->|(x & ->)]; [destruct (lone_bracket _ F)|]. rewrite wrap_wrapped. apply gives_is; [discriminate|].
    specialize (S x eq_refl). exists (Sym "(" :: text SQLite x ++ [Sym ")"]), (Some (Formula (text SQLite x))). rewrite (wrapped_tokens _ _ S).
    destruct (fits_is _ _ S) as (_ & Nx & Wx). split; [reflexivity|]. split.
    + unfold clause. assert (sqlite_literal (Sym "(" :: text SQLite x ++ [Sym ")"]) = false) as ->.
      { destruct (text SQLite x) as [|t [|t' r]]; [congruence|destruct t; reflexivity|destruct t; reflexivity]. }
      rewrite (bracket_formula _ _ S). reflexivity.
    + cbn [same meaning]. rewrite (text_is _ _ _ (wrapped_tokens _ _ S)). symmetry. apply bare_brackets; assumption.
  - rewrite (wrap_plain e N Wr). apply gives_is; [discriminate|]. exists (Sym "(" :: text SQLite e ++ [Sym ")"]), (Some (Formula (text SQLite e))).
    rewrite (wrapped_tokens _ _ F). split; [reflexivity|]. split; [|reflexivity]. unfold clause.
    assert (sqlite_literal (Sym "(" :: text SQLite e ++ [Sym ")"]) = false) as ->.
    { destruct (text SQLite e) as [|t [|t' r]]; [congruence|destruct t; reflexivity|destruct t; reflexivity]. }
    rewrite (bracket_formula _ _ F). reflexivity.
Qed.
Lemma sqlite_literal_gives e : fits SQLite [] e -> sqlite_literal (text SQLite e) = true -> gives SQLite e (GivenFormula e).
Proof.
  intros F L. destruct (fits_is _ _ F) as (T & _). apply gives_is; [exact (fits_some _ _ _ F)|].
  exists (text SQLite e), (Some (Formula (text SQLite e))). split; [exact T|]. unfold clause. rewrite L. split; reflexivity.
Qed.
Lemma words_sqlite e : is_word words (Word e) = true -> sqlite_literal [Word e] = true.
Proof. unfold sqlite_literal, words. cbn [is_word signed_number orb]. intros H. apply bmem_In in H. apply bmem_In. cbn [In] in *. tauto. Qed.
Lemma read_sqlite flt g : given_ok SQLite g -> clear_default flt SQLite g -> gives SQLite (read_default flt SQLite (report SQLite g)) g.
Proof.
  destruct g as [|v|e]; cbn [given_ok clear_default report]; intros F C; [reflexivity|discriminate F|].
  destruct C as (Sb & Sq & Nu). pose proof (fits_some _ _ _ F) as N. unfold read_default. destruct e as [|a e']; [congruence|]. set (e := a :: e') in *.
  destruct (is_literal flt e) eqn:L; [|apply sqlite_wraps; assumption]. apply sqlite_literal_gives; [exact F|].
  destruct (literal_cases _ _ L) as [(x & E)|[(w & I & E)|E]].
  - destruct (Sq x E) as (v & T). rewrite (text_is _ _ _ T). reflexivity.
  - destruct (words_lex SQLite e w I E) as [T W]. rewrite (text_is _ _ _ T). apply words_sqlite. exact W.
  - unfold sqlite_literal. rewrite (Nu E). reflexivity.
Qed.

Lemma read_postgres flt g : given_ok Postgres g -> clear_default flt Postgres g -> gives Postgres (read_default flt Postgres (report Postgres g)) g.
Proof.
  destruct g as [|v|e]; cbn [given_ok clear_default report]; intros F C; [reflexivity|discriminate F|]. cbn [read_default].
  destruct (fits_is _ _ F) as (T & _). apply gives_is; [exact (fits_some _ _ _ F)|]. exists (text Postgres e), (Some (Formula (text Postgres e))).
  split; [exact T|]. unfold clause. rewrite C. split; reflexivity.
Qed.

Lemma sqlserver_gives t e : fits SQLServer [] t -> bare (text SQLServer t) = bare (text SQLServer e) -> gives SQLServer t (GivenFormula e).
Proof.
  intros F E. destruct (fits_is _ _ F) as (T & _ & W). apply gives_is; [exact (fits_some _ _ _ F)|]. exists (text SQLServer t), (Some (Formula (text SQLServer t))).
  split; [exact T|]. unfold clause. rewrite W. split; [reflexivity|exact E].
Qed.
Lemma fits_wrapped d s : fits d [] s -> fits d [] (B"(" ++ s ++ B")").
Proof.
  intros F. destruct (fits_is _ _ F) as (_ & N & W). exists (Sym "(" :: text d s ++ [Sym ")"]). split; [exact (wrapped_tokens _ _ F)|]. split; [discriminate|].
  cbn [whole]. change (deeper 0 (Sym "(")) with 1. change (negb _ && _) with (whole [] 1 (text d s ++ [Sym ")"])).
  assert (forall ts n, whole [] n ts = true -> whole [] (S n) (ts ++ [Sym ")"]) = true) as G; [|apply G; exact W].
  clear. induction ts as [|t ts IH]; intros n H; [destruct n; [reflexivity|discriminate H]|]. cbn [app whole] in *. apply andb_true_iff in H as [A H].
  change (S n =? 0) with false. cbn [andb negb]. unfold deeper in *. destruct (is_sym "(" t) eqn:O; [apply IH; exact H|].
  destruct (is_sym ")" t) eqn:Cl; [|apply IH; exact H]. cbn [pred] in *. destruct n as [|n].
  - exfalso. unfold ends_run in A. rewrite Cl in A. cbn in A. rewrite !orb_true_r in A. discriminate A.
  - cbn [pred] in H. apply IH. exact H.
Qed.
Lemma bare_wrapped d s : fits d [] s -> bare (text d (B"(" ++ s ++ B")")) = bare (text d s).
Proof. intros F. rewrite (text_is _ _ _ (wrapped_tokens _ _ F)). destruct (fits_is _ _ F) as (_ & N & W). apply bare_brackets; assumption. Qed.
Lemma read_sqlserver flt g : given_ok SQLServer g -> clear_default flt SQLServer g -> gives SQLServer (read_default flt SQLServer (report SQLServer g)) g.
Proof.
  destruct g as [|v|e]; cbn [given_ok clear_default report]; intros F C.
  - unfold read_default. change (unwrap_brackets (unwrap_brackets [])) with (@nil ascii). destruct (is_literal flt []); reflexivity.
  - discriminate F.
  - unfold read_default. rewrite unwrap_wrapped. unfold unwrap_brackets. destruct (wrapped_in_brackets e) eqn:Wr.
    + destruct (wrapped_split _ Wr) as [->|(x & ->)]; [destruct (lone_bracket _ F)|]. specialize (C x eq_refl).
      assert (removelast (tl (B"(" ++ x ++ B")")) = x) as -> by (exact (removelast_last x _)).
      destruct (is_literal flt x); [apply sqlserver_gives; [exact C|symmetry; apply bare_wrapped; exact C]|].
      pose proof (fits_some _ _ _ C) as N. unfold wrap_brackets. destruct (wrapped_in_brackets x) eqn:Wx.
      * destruct x as [|a x']; [congruence|]. apply sqlserver_gives; [exact C|symmetry; apply bare_wrapped; exact C].
      * destruct x as [|a x']; [congruence|]. apply sqlserver_gives; [apply fits_wrapped; exact C|reflexivity].
    + destruct (is_literal flt e); [apply sqlserver_gives; [exact F|reflexivity]|]. rewrite (wrap_plain e (fits_some _ _ _ F) Wr).
      apply sqlserver_gives; [apply fits_wrapped; exact F|apply bare_wrapped; exact F].
Qed.

(** MySQL *)
Lemma replace_none e : ~ In squote e -> replace_byte squote (B"\'") e = e.
Proof.
  induction e as [|c e IH]; intros N; [reflexivity|]. change (replace_byte squote (B"\'") (c :: e)) with ((if ceqb c squote then B"\'" else [c]) ++ replace_byte squote (B"\'") e).
  destruct (ceqb_spec c squote) as [->|]; [exfalso; apply N; left; reflexivity|]. cbn [app]. f_equal. apply IH. intros I. apply N. right. exact I.
Qed.
Lemma escape_doubles v : (forall a b, v <> a ++ squote :: squote :: b) -> escape_quote squote v = replace_byte squote [squote; squote] v.
Proof.
  induction v as [|x v IH]; intros N; [reflexivity|].
  assert (forall a b, v <> a ++ squote :: squote :: b) as Nv by (intros a b ->; exact (N (x :: a) b eq_refl)). specialize (IH Nv).
  change (replace_byte squote [squote; squote] (x :: v)) with ((if ceqb x squote then [squote; squote] else [x]) ++ replace_byte squote [squote; squote] v). rewrite <- IH. cbn [escape_quote]. destruct (ceqb_spec x squote) as [->|]; [|reflexivity].
  destruct v as [|y [|z v]]; [reflexivity|reflexivity|]. destruct (ceqb_spec y squote) as [->|]; [|reflexivity]. exfalso. exact (N [] _ eq_refl).
Qed.
Lemma mysql_str v : ~ In "\"%char v -> (forall a b, v <> a ++ squote :: squote :: b) -> tokens MySQL ([squote] ++ escape_quote squote v ++ [squote]) = Some [Str v].
Proof.
  intros Nb Nd. apply lexed_tokens. apply lexed_step. unfold lex_one. cbn [app]. change (is_space squote) with false. rewrite ceqb_refl. unfold lex_strlit.
  rewrite (escape_doubles v Nd). pose proof (SprintFacts.lex_string_lit_bs v [] Nb) as L. change squote with "'"%char in *. rewrite L; [reflexivity|discriminate].
Qed.
Lemma decimal_lexed d w : plain_decimal w = true -> lexed d w [Num w] [] /\ decimal w = true /\ without_zeros w = w.
Proof.
  unfold plain_decimal. destruct w as [|c w]; [discriminate|]. intros H. apply andb_true_iff in H as [H Z]. apply andb_true_iff in H as [D H].
  split; [|split; [exact H|destruct (beqb_spec (without_zeros (c :: w)) (c :: w)); [assumption|discriminate Z]]].
  apply lexed_step. apply SubsetTextLiterals.number_lex; [exact D|]. cbn [decimal forallb] in H. apply andb_true_iff in H as [_ H].
  rewrite forallb_forall in *. intros x I. specialize (H x I). apply orb_true_iff in H as [H|H]; [|rewrite H; apply orb_true_r].
  rewrite (digit_continue x H). reflexivity.
Qed.
Lemma number_gives v : plain_number v = true -> exists ts, tokens MySQL v = Some ts /\ mysql_default ts = Some (Some (Value v)).
Proof.
  unfold plain_number. destruct v as [|c w]; [discriminate|]. intros H. apply orb_true_iff in H as [H|H].
  - destruct (decimal_lexed MySQL _ H) as (L & D & Z). exists [Num (c :: w)]. split; [apply lexed_tokens; exact L|]. cbn [mysql_default]. rewrite D, Z. reflexivity.
  - apply andb_true_iff in H as [H E]. apply andb_true_iff in H as [C H]. destruct (ceqb_spec c "-") as [->|]; [|discriminate C].
    destruct (beqb_spec (minus_number w) ("-"%char :: w)) as [M|]; [|discriminate E]. destruct (decimal_lexed MySQL _ H) as (L & D & Z).
    exists [Sym "-"; Num w]. split.
    + apply lexed_tokens. apply (lexed_app MySQL _ [Sym "-"] w [Num w] []); [|exact L]. apply lexed_step. unfold lex_one.
      change (is_space "-") with false. change (ceqb "-" squote) with false. change (ceqb "-" (id_open MySQL)) with false. cbv iota.
      change (strip_prefix (B"x'") ("-"%char :: w)) with (@None bytes). cbv iota. change (ident_start "-") with false. change (is_digit "-") with false. cbv iota.
      assert (comment "-" w = false) as ->; [|reflexivity]. unfold plain_decimal in H. destruct w as [|x w]; [reflexivity|]. apply andb_true_iff in H as [H _]. apply andb_true_iff in H as [H _].
      unfold comment. destruct (ceqb_spec x "-") as [->|]; [discriminate H|]. reflexivity.
    + cbn [mysql_default]. change (ceqb "-" "-") with true. cbn [andb]. rewrite D, M. reflexivity.
Qed.
Lemma read_mysql flt g : given_ok MySQL g -> clear_default flt MySQL g -> gives MySQL (read_default flt MySQL (report MySQL g)) g.
Proof.
  destruct g as [|v|e]; cbn [given_ok clear_default report]; intros F C; [reflexivity| |].
  - destruct C as (N & Nb & Ex & Nq & Nd & Nw & Nu). unfold read_default. destruct v as [|a v']; [congruence|]. set (v := a :: v') in *.
    rewrite wrapped_is, Ex, orb_false_r. destruct (is_literal flt v) eqn:L.
    + apply gives_is; [discriminate|]. destruct (literal_cases _ _ L) as [(x & E)|[(w & I & E)|E]]; [destruct (Nq x E)|rewrite (Nw w I) in E; discriminate E|].
      destruct (number_gives v (Nu E)) as (ts & T & M). exists ts, (Some (Value v)). split; [exact T|]. split; [exact M|reflexivity].
    + apply gives_is; [discriminate|]. exists [Str v], (Some (Value v)). split; [apply mysql_str; assumption|]. split; reflexivity.
  - pose proof (fits_some _ _ _ F) as N. destruct C as [E|(Ex & Sb & Nq)].
    + assert (In (B"CURRENT_TIMESTAMP") words) as I by (vm_compute; tauto). destruct (words_lex MySQL e _ I E) as [T W].
      assert (replace_byte squote (B"\'") e = e) as ->.
      { assert (~ In squote e) as Q; [|exact (replace_none e Q)]. intros J. assert (K : In squote (to_lower e)) by (apply in_map_iff; exists squote; split; [reflexivity|exact J]).
        unfold equal_fold in E. destruct (beqb_spec (to_lower e) (to_lower (B"CURRENT_TIMESTAMP"))) as [X|]; [|discriminate E]. rewrite X in K. revert K. vm_compute. intuition discriminate. }
      assert (is_literal flt e = true) as L.
      { unfold is_literal. apply orb_true_iff. left. apply orb_true_iff. right. apply existsb_exists. exists "CURRENT_TIMESTAMP"%string. split; [vm_compute; tauto|exact E]. }
      unfold read_default. rewrite L. destruct e as [|a e']; [congruence|]. apply gives_is; [discriminate|]. exists [Word (a :: e')], (Some (Formula [Word (a :: e')])).
      split; [exact T|]. split; [|cbn [same meaning]; rewrite (text_is _ _ _ T); reflexivity].
      cbn [clause mysql_default].
      assert (forall w, beqb (to_lower (B"CURRENT_TIMESTAMP")) (to_lower w) = false -> equal_fold (a :: e') w = false) as No.
      { intros w H. unfold equal_fold in *. destruct (beqb_spec (to_lower (a :: e')) (to_lower (B"CURRENT_TIMESTAMP"))) as [X|]; [|discriminate E]. rewrite X. exact H. }
      rewrite !No, E by reflexivity. reflexivity.
    + assert (replace_byte squote (B"\'") e = e) as -> by (exact (replace_none e Nq)).
      unfold read_default. rewrite wrapped_is, Ex, orb_true_r. destruct e as [|a e']; [congruence|]. set (e := a :: e') in *.
      assert (Wr : wrapped_in_brackets e = true) by (rewrite wrapped_is; exact Ex).
      destruct (wrapped_split _ Wr) as [Ee|(x & Ee)]; [rewrite Ee in F; destruct (lone_bracket _ F)|]. specialize (Sb x Ee). rewrite Ee. apply gives_is; [discriminate|].
      exists (Sym "(" :: text MySQL x ++ [Sym ")"]), (Some (Formula (text MySQL x))). split; [exact (wrapped_tokens _ _ Sb)|]. split.
      * cbn [clause]. destruct (fits_is _ _ Sb) as (_ & Nx & _). assert (mysql_default (Sym "(" :: text MySQL x ++ [Sym ")"]) = match parens expression (Sym "(" :: text MySQL x ++ [Sym ")"]) with Some (e, []) => Some (Some (Formula e)) | _ => None end) as ->.
        { destruct (text MySQL x) as [|t [|t' r]]; [congruence|destruct t; reflexivity|destruct t; reflexivity]. }
        rewrite (bracket_formula _ _ Sb). reflexivity.
      * cbn [same meaning]. symmetry. apply bare_wrapped. exact Sb.
Qed.
