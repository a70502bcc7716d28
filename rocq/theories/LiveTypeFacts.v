(** The type that is dumped is read as the type of the column. *)
From Verif Require Import GoStr GoStrFacts TrimFacts ModelCatalog ModelDdl NormFacts SpecSql SpecInsert SpecTokens TokenFacts TokenReads SubsetTextLiterals SpecDdl SpecDdlText DdlTokens DdlColumns DefaultFacts ModelReadType SpecLiveType.
From Coq Require Import ZifyBool ZifyNat.

(** ** Names and arguments *)
Definition word_char (c : ascii) : bool := (plain_start c || is_digit c)%bool.
Lemma word_char_facts c : word_char c = true -> is_space c = false /\ ident_continue (to_upper_c c) = true /\ to_lower_c (to_upper_c c) = c
  /\ c <> "("%char /\ c <> ")"%char /\ c <> ","%char /\ c <> "."%char /\ c <> "]"%char /\ to_lower_c c = c /\ ident_continue c = true.
Proof. unfold word_char. chars c; intros; repeat split; congruence. Qed.
Lemma plain_start_facts c : plain_start c = true -> ident_start (to_upper_c c) = true /\ ident_start c = true.
Proof. chars c; intros; repeat split; congruence. Qed.
Lemma lower_upper s : forallb word_char s = true -> to_lower (to_upper s) = s.
Proof.
  induction s as [|c s IH]; [reflexivity|]. cbn [forallb]. intros H. apply andb_true_iff in H as [H1 H2]. unfold to_lower, to_upper in *. cbn [map].
  rewrite (IH H2). destruct (word_char_facts c H1) as (_ & _ & -> & _). reflexivity.
Qed.
Lemma lower_same s : forallb word_char s = true -> to_lower s = s.
Proof.
  induction s as [|c s IH]; [reflexivity|]. cbn [forallb]. intros H. apply andb_true_iff in H as [H1 H2]. unfold to_lower in *. cbn [map].
  rewrite (IH H2). destruct (word_char_facts c H1) as (_ & _ & _ & _ & _ & _ & _ & _ & -> & _). reflexivity.
Qed.
Lemma upper_continue s : forallb word_char s = true -> forallb ident_continue (to_upper s) = true.
Proof.
  induction s as [|c s IH]; [reflexivity|]. change (to_upper (c :: s)) with (to_upper_c c :: to_upper s). cbn [forallb]. intros H. apply andb_true_iff in H as [H1 H2].
  destruct (word_char_facts c H1) as (_ & -> & _). exact (IH H2).
Qed.
Lemma same_continue s : forallb word_char s = true -> forallb ident_continue s = true.
Proof.
  induction s as [|c s IH]; [reflexivity|]. cbn [forallb]. intros H. apply andb_true_iff in H as [H1 H2].
  destruct (word_char_facts c H1) as (_ & _ & _ & _ & _ & _ & _ & _ & _ & ->). exact (IH H2).
Qed.
Lemma plain_words n : plain_pg n = true -> forallb word_char n = true /\ n <> [].
Proof.
  destruct n as [|c n]; [discriminate|]. cbn [plain_pg forallb]. intros H. apply andb_true_iff in H as [H1 H2]. split; [|discriminate].
  unfold word_char at 1. rewrite H1. exact H2.
Qed.
Lemma unquoted_facts n : unquoted n = true -> plain_pg n = true /\ find_words pg_words [Word n] = None /\ quote_pg n = n.
Proof.
  intros H. unfold quote_pg. rewrite H. unfold unquoted in H. apply andb_true_iff in H as [H H2]. apply andb_true_iff in H as [H1 _].
  split; [exact H1|]. split; [|reflexivity]. destruct (find_words pg_words [Word n]); [discriminate H2|reflexivity].
Qed.
(** A word, as it is and in upper case. *)
Lemma lexed_plain n rest : plain_pg n = true -> delimited rest ->
  lexed Postgres (to_upper n ++ rest) [Word (to_upper n)] rest /\ lexed Postgres (n ++ rest) [Word n] rest.
Proof.
  intros H D. destruct (plain_words n H) as (W & N). split; apply word_lexed; try exact D; try exact (upper_continue n W); try exact (same_continue n W);
    destruct n as [|c n]; try congruence; cbn [plain_pg] in H; apply andb_true_iff in H as [H _]; destruct (plain_start_facts c H); assumption.
Qed.
Lemma lex_word n : plain_pg n = true -> Lex Postgres (to_upper n) [Word (to_upper n)] /\ Lex Postgres n [Word n].
Proof. intros H. destruct (lexed_plain n [] H I) as (A & C). rewrite app_nil_r in A, C. split; assumption. Qed.
Lemma lex_dot v t : Lex Postgres v [t] -> lexed Postgres (B"." ++ v) [Sym "."; t] [].
Proof.
  intros H. assert (D : lex_one Postgres (B"." ++ v) = Some ([Sym "."], v)) by (destruct v; reflexivity). exact (lexed_app _ _ [_] _ [_] _ (lexed_step _ _ _ _ D) H).
Qed.
Lemma lex_arg a : plain_arg a = true -> exists t, Lex Postgres (to_upper a) [t] /\ forall more, argument_token (t :: more) = Some (a, more).
Proof.
  destruct a as [|c a]; [discriminate|]. unfold plain_arg. intros H. change (forallb word_char (c :: a) = true) in H.
  pose proof (lower_upper _ H) as Lu. pose proof (upper_continue _ H) as Co.
  destruct (is_digit (to_upper_c c)) eqn:D.
  - exists (Num (to_upper (c :: a))). split.
    + unfold Lex. apply lexed_step. change (to_upper (c :: a)) with (to_upper_c c :: to_upper a) in *. apply number_lex; [exact D|].
      cbn [forallb] in Co. apply andb_true_iff in Co as [_ Co]. apply forallb_forall. intros x Ix. rewrite (proj1 (forallb_forall _ _) Co x Ix). reflexivity.
    + intros more. cbn [argument_token]. rewrite Lu. reflexivity.
  - exists (Word (to_upper (c :: a))). split.
    + rewrite <- (app_nil_r (to_upper (c :: a))) at 1. apply word_lexed; [exact Co| |exact I].
      cbn [to_upper map]. cbn [forallb] in H. apply andb_true_iff in H as [H _]. revert H D. unfold word_char. clear. chars c; congruence.
    + intros more. cbn [argument_token]. rewrite Lu. reflexivity.
Qed.

(** ** Reading *)
Definition mild (more : toks) : Prop := match more with [] => True | Sym c :: _ => c <> "."%char | _ => False end.
Lemma kw_mild k more : mild more -> kw k more = None.
Proof. destruct more as [|[]]; cbn; tauto. Qed.
Lemma dot_mild more : mild more -> sym "." more = None.
Proof.
  destruct more as [|[]]; cbn [mild sym]; try tauto. intros H. replace (ceqb "." c) with false; [reflexivity|]. symmetry. apply ceqb_neq. congruence.
Qed.
Lemma kws_word n w more ws : kws ws [Word n] = None -> to_lower w = to_lower n -> mild more -> kws ws (Word w :: more) = None.
Proof.
  intros H E M. destruct ws as [|k ws]; [discriminate H|]. cbn [kws kw] in *. rewrite E. destruct (beqb (to_lower n) (to_lower k)); [|reflexivity]. cbn [andthen] in *.
  destruct ws as [|k2 ws]; [discriminate H|]. cbn [kws]. rewrite (kw_mild k2 more M). reflexivity.
Qed.
Lemma find_none n w more l : find_words l [Word n] = None -> to_lower w = to_lower n -> mild more -> find_words l (Word w :: more) = None.
Proof.
  intros H E M. induction l as [|(ws & x) l IH]; [reflexivity|]. cbn [find_words] in *. destruct (kws ws [Word n]) as [r|] eqn:K; [discriminate H|].
  rewrite (kws_word n w more ws K E M). exact (IH H).
Qed.
Lemma find_dot n w more l : find_words l [Word n] = None -> to_lower w = to_lower n -> find_words l (Word w :: Sym "." :: more) = None.
Proof.
  intros H E. induction l as [|(ws & x) l IH]; [reflexivity|]. cbn [find_words] in *. destruct (kws ws [Word n]) as [r|] eqn:K; [discriminate H|].
  replace (kws ws (Word w :: Sym "." :: more)) with (@None toks); [exact (IH H)|]. symmetry.
  destruct ws as [|k ws]; [discriminate K|]. cbn [kws kw] in *. rewrite E. destruct (beqb (to_lower n) (to_lower k)); [|reflexivity]. cbn [andthen] in *.
  destruct ws as [|k2 ws]; [discriminate K|]. reflexivity.
Qed.
Lemma read_one n w more : find_words pg_words [Word n] = None -> to_lower w = n -> to_lower n = n -> mild more -> read_path (Word w :: more) = Some ([n], more).
Proof.
  intros F E E2 M. unfold read_path. rewrite (find_none n w more _ F) by (congruence || exact M). unfold tlist. cbn [List.length tlist_ path_part andthen].
  rewrite (dot_mild more M), E. reflexivity.
Qed.
Lemma read_two s n w v more : find_words pg_words [Word s] = None -> to_lower w = s -> to_lower s = s -> to_lower v = n -> mild more ->
  read_path (Word w :: Sym "." :: Word v :: more) = Some ([s; n], more).
Proof.
  intros F E E2 En M. unfold read_path. rewrite (find_dot s w _ _ F) by congruence. unfold tlist. cbn [List.length tlist_ path_part andthen sym].
  change (ceqb "."%char "."%char) with true. cbn [path_part andthen]. rewrite (dot_mild more M), E, En. reflexivity.
Qed.
(** A name that is written as [N], with or without arguments. *)
Definition Base (p : list bytes) (args : bool) (N : bytes) : Prop :=
  exists nts, Lex Postgres N nts /\ (forall more, mild more -> read_path (nts ++ more) = Some (p, more))
  /\ (args = false -> p = [B"bpchar"] -> forall more, one_char (nts ++ more) [] = []).
Definition array_text (b : bool) : bytes := if b then B"[]" else [].
Definition array_toks (b : bool) : toks := if b then [Sym "["; Sym "]"]%char else [].
Definition some (l : list bytes) : bool := match l with [] => false | _ => true end.
Lemma lex_array b : Lex Postgres (array_text b) (array_toks b) /\ ends (array_text b).
Proof. destruct b; (split; [apply lex_tokens; vm_compute; reflexivity|split; [cbn; repeat split; solve [reflexivity|discriminate|exact I]|cbn; repeat split; discriminate || exact I]]). Qed.
Lemma lex_args l b : forallb plain_arg l = true -> List.length l <= 2 ->
  exists more, Lex Postgres (args_text (map to_upper l) ++ array_text b) more /\ ends (args_text (map to_upper l) ++ array_text b) /\ mild more /\ read_args more = (l, array_toks b).
Proof.
  intros P L. destruct (lex_array b) as (La & Ea). destruct l as [|x [|y [|]]]; cbn [List.length] in L; [| | |lia].
  - exists (array_toks b). split; [exact La|]. split; [exact Ea|]. split; [destruct b; cbn; [discriminate|exact I]|]. destruct b; reflexivity.
  - cbn [forallb] in P. apply andb_true_iff in P as [P _]. destruct (lex_arg x P) as (t & Lx & Rx).
    exists (Sym "(" :: t :: Sym ")" :: array_toks b). cbn [map args_text join]. rewrite <- !app_assoc. split; [|split; [|split]].
    + change (Sym "(" :: t :: Sym ")" :: array_toks b) with ([Sym "("] ++ [t] ++ [Sym ")"] ++ array_toks b). apply lex_fixed; [fix_text|].
      apply lex_app; [exact Lx| |ending]. apply lex_fixed; [fix_text|exact La].
    + ending.
    + cbn. discriminate.
    + unfold read_args, parens. cbn [sym]. change (ceqb "("%char "("%char) with true. cbn [andthen]. unfold tlist. cbn [List.length tlist_]. rewrite Rx. cbn [andthen sym].
      change (ceqb ","%char ")"%char) with false. change (ceqb ")"%char ")"%char) with true. cbn [andthen]. reflexivity.
  - cbn [forallb] in P. apply andb_true_iff in P as [P P2]. apply andb_true_iff in P2 as [P2 _]. destruct (lex_arg x P) as (t & Lx & Rx). destruct (lex_arg y P2) as (u & Ly & Ry).
    exists (Sym "(" :: t :: Sym "," :: u :: Sym ")" :: array_toks b). cbn [map args_text join]. rewrite <- !app_assoc. split; [|split; [|split]].
    + change (Sym "(" :: t :: Sym "," :: u :: Sym ")" :: array_toks b) with ([Sym "("] ++ [t] ++ [Sym ","] ++ [u] ++ [Sym ")"] ++ array_toks b). apply lex_fixed; [fix_text|].
      apply lex_app; [exact Lx| |ending]. apply lex_fixed; [fix_text|]. apply lex_app; [exact Ly| |ending]. apply lex_fixed; [fix_text|exact La].
    + ending.
    + cbn. discriminate.
    + unfold read_args, parens. cbn [sym]. change (ceqb "("%char "("%char) with true. cbn [andthen]. unfold tlist. cbn [List.length tlist_]. rewrite Rx. cbn [andthen sym].
      change (ceqb ","%char ","%char) with true. cbn [andthen]. rewrite Ry. cbn [andthen sym].
      change (ceqb ","%char ")"%char) with false. change (ceqb ")"%char ")"%char) with true. cbn [andthen]. reflexivity.
Qed.
Lemma zone_mild n more : mild more -> read_zone n more = (n, more).
Proof. intros M. unfold read_zone. destruct (beqb n (B"timestamp") || beqb n (B"time"))%bool; [|reflexivity]. cbn [kws]. rewrite !(kw_mild _ more M). reflexivity. Qed.
Lemma one_char_some ts a l : one_char ts (a :: l) = a :: l.
Proof. destruct ts; reflexivity. Qed.
Lemma read_finish p args b (nts : toks) more rest : 
  (forall more, mild more -> read_path (nts ++ more) = Some (p, more)) -> mild more -> read_args more = (args, rest) -> rest = array_toks b ->
  (p = [B"bpchar"] -> one_char (nts ++ more) args = args) -> read_pg_type (nts ++ more) = Some (PgType p args b).
Proof.
  intros P M A -> O. unfold read_pg_type. rewrite (P more M). cbn [andthen]. rewrite A.
  assert (E : match p with [n] => if beqb n (B"bpchar") then one_char (nts ++ more) args else args | _ => args end = args).
  { destruct p as [|n [|? ?]]; try reflexivity. destruct (beqb_spec n (B"bpchar")) as [->|]; [|reflexivity]. exact (O eq_refl). }
  rewrite E. clear E O A P.
  assert (E : match p with [n] => let '(n, r) := read_zone n (array_toks b) in ([n], r) | _ => (p, array_toks b) end = (p, array_toks b)).
  { destruct p as [|n [|? ?]]; try reflexivity. rewrite zone_mild by (destruct b; cbn; [discriminate|exact I]). reflexivity. }
  rewrite E. destruct b; reflexivity.
Qed.
Lemma read_base p N l b : Base p (some l) N -> forallb plain_arg l = true -> List.length l <= 2 ->
  exists ts, tokens Postgres (N ++ args_text (map to_upper l) ++ array_text b) = Some ts /\ read_pg_type ts = Some (PgType p l b).
Proof.
  intros (nts & Ln & R & O) P L. destruct (lex_args l b P L) as (more & Lm & E & M & A). exists (nts ++ more). split.
  - apply lex_tokens. exact (lex_app _ _ _ _ _ Ln Lm E).
  - apply (read_finish p l b nts more (array_toks b) R M A eq_refl). intros Ep. destruct l as [|a l]; [exact (O eq_refl Ep more)|apply one_char_some].
Qed.

(** ** Types in Postgres *)
(** Names of types that are changed by normalizeColumnType. *)
Definition changed : list bytes := map B
  ["INTEGER"; "SERIAL"; "SERIAL4"; "INT4"; "BIGSERIAL"; "SERIAL8"; "INT8"; "SMALLSERIAL"; "SERIAL2"; "INT2"; "DECIMAL"; "FLOAT4"; "FLOAT8";
   "CHARACTERVARYING"; "CHARACTER"; "TIMESTAMPWITHOUTTIMEZONE"; "TIMESTAMPWITHTIMEZONE"; "TIMEWITHOUTTIMEZONE"; "TIMEWITHTIMEZONE"; "BITVARYING"; "BOOL"]%string.
Lemma one_of_not k l : ~ In k changed -> (forall s, In s l -> In (B s) changed) -> one_of k l = false.
Proof.
  intros N I. unfold one_of. destruct (bmem k (map B l)) eqn:E; [|reflexivity]. exfalso. apply bmem_In in E. apply in_map_iff in E as (s & <- & Is). exact (N (I s Is)).
Qed.
Lemma unchanged t : ~ In (no_spaces t) changed -> ModelDdl.pg_type t [] = t.
Proof.
  intros N. unfold ModelDdl.pg_type. cbv zeta. change (beqb [] []) with true. cbn [negb andb].
  repeat match goal with |- context [one_of (no_spaces t) ?l] =>
    first [rewrite (one_of_not (no_spaces t) l N) by (intros s Is; cbn [In] in Is; unfold changed; cbn [map In]; repeat destruct Is as [<-|Is]; try contradiction; tauto)
          |destruct (one_of (no_spaces t) l); [reflexivity|]] end. reflexivity.
Qed.
(** What is written before and after the arguments becomes [N]. *)
Definition Normal (before after N : bytes) (args : bool) : Prop :=
  ModelDdl.pg_type (if args then to_upper before else to_upper (before ++ after)) (if args then trim_space (to_upper after) else []) = N
  /\ upper N /\ trimmed before /\ before <> [] /\ trimmed (before ++ after)
  /\ ~ In "("%char before /\ ~ In ")"%char (before ++ after) /\ ~ In "]"%char (before ++ after) /\ has_suffix N (B"[]") = false.
Lemma assoc_In {A} n (l : list (bytes * A)) a : assoc n l = Some a -> In (n, a) l.
Proof.
  induction l as [|(k & x) l IH]; cbn [assoc]; [discriminate|]. destruct (beqb_spec n k) as [->|]; [intros [= ->]; left; reflexivity|intros H; right; exact (IH H)].
Qed.
Ltac base_now := unfold Base; eexists; split; [apply lex_tokens; vm_compute; reflexivity|split;
  [intros [|[] more]; cbn [mild]; try contradiction; intros M; cbn [app]; first
    [reflexivity | refine (read_one _ _ [] _ _ _ _); [vm_compute; reflexivity|reflexivity|reflexivity|exact I]
    | refine (read_one _ _ (Sym _ :: _) _ _ _ _); [vm_compute; reflexivity|reflexivity|reflexivity|exact M]]
  |first [discriminate 1 | discriminate 2 | intros _ _ more; reflexivity]]].
Ltac normal_now := unfold Normal; split; [vm_compute; reflexivity|]; split; [vm_compute; reflexivity|]; split; [split; vm_compute; exact I || reflexivity|];
  split; [discriminate|]; split; [split; vm_compute; exact I || reflexivity|]; split; [|split; [|split]];
  [vm_compute; intuition discriminate|vm_compute; intuition discriminate|vm_compute; intuition discriminate|vm_compute; reflexivity].
Lemma builtin_base n before after args : assoc n pg_names = Some (before, after) ->
  let '(b, a) := if beqb n (B"bpchar") && negb args then (n, []) else (before, after) in
  exists N, Normal b a N args /\ Base [n] args N.
Proof.
  intros H. apply assoc_In in H. unfold pg_names in H. cbn [In] in H.
  repeat (destruct H as [H|H]; [injection H as <- <- <-; destruct args; (eexists; split; [normal_now|base_now])|]). contradiction.
Qed.
(** ** Types of users *)
Lemma word_text s : forallb word_char s = true -> ~ In "("%char s /\ ~ In ")"%char s /\ ~ In ","%char s /\ ~ In "."%char s /\ ~ In "]"%char s /\ Forall (fun c => is_space c = false) s.
Proof.
  intros H. assert (A : forall c, In c s -> word_char c = true) by (apply forallb_forall; exact H).
  split; [|split; [|split; [|split; [|split]]]]; try (intros I; destruct (word_char_facts _ (A _ I)); intuition congruence).
  apply Forall_forall. intros c I. exact (proj1 (word_char_facts c (A c I))).
Qed.
Lemma trimmed_text s : Forall (fun c => is_space c = false) s -> trimmed s.
Proof.
  intros H. split.
  - destruct s; [exact I|]. inversion H; assumption.
  - apply Forall_rev in H. destruct (rev s); [exact I|]. inversion H; assumption.
Qed.
Lemma no_spaces_id s : Forall (fun c => is_space c = false) s -> no_spaces s = s.
Proof.
  intros H. unfold no_spaces. induction H as [|c s Hc H IH]; [reflexivity|]. cbn [replace_byte flat_map]. destruct (ceqb_spec c SPACE) as [E|]; [subst c; discriminate Hc|]. cbn [app]. unfold replace_byte in IH. rewrite IH. reflexivity.
Qed.
Lemma spaces_upper s : Forall (fun c => is_space c = false) s -> Forall (fun c => is_space c = false) (to_upper s).
Proof. intros H. unfold to_upper. apply Forall_map. eapply Forall_impl; [|exact H]. intros c Hc. cbn beta. rewrite is_space_upper. exact Hc. Qed.
Lemma no_array s : ~ In "]"%char s -> has_suffix s (B"[]") = false.
Proof.
  intros N. destruct (has_suffix s (B"[]")) eqn:E; [|reflexivity]. exfalso. apply has_suffix_iff in E as (x & ->). apply N. apply in_or_app. right. right. left. reflexivity.
Qed.
Lemma changed_name n : In (to_upper n) changed -> forallb word_char n = true -> unquoted n = true -> ~ In n squeezed -> False.
Proof.
  intros H W U S. assert (In n (map to_lower changed)) as I by (apply in_map_iff; exists (to_upper n); split; [exact (lower_upper n W)|exact H]).
  clear H W. vm_compute in I. repeat (destruct I as [<-|I]; [first [vm_compute in U; discriminate U | apply S; vm_compute; tauto]|]). exact I.
Qed.
Lemma user_base p args : path_ok p -> clear_path p -> match p with [n] => assoc n pg_names = None | _ => True end ->
  join (B".") (map quote_pg p) = join (B".") p /\ Normal (join (B".") p) [] (to_upper (join (B".") p)) args /\ Base p args (to_upper (join (B".") p)) /\ Base p args (join (B".") p)
  /\ to_lower (join (B".") p) = join (B".") p /\ ~ In (to_upper (join (B".") p)) [B"TIMESTAMPTZ"; B"FLOAT"].
Proof.
  assert (G : forall s, Forall (fun c => is_space c = false) s -> ~ In "("%char s -> ~ In ")"%char s -> ~ In "]"%char s -> ~ In (to_upper s) changed -> s <> [] -> Normal s [] (to_upper s) args).
  { intros s F N1 N2 N3 C N4. unfold Normal. rewrite app_nil_r. split; [|split; [|split; [|split; [|split; [|split; [|split; [|split]]]]]]].
    - change (trim_space (to_upper [])) with (@nil ascii). assert (E : ModelDdl.pg_type (to_upper s) [] = to_upper s) by (apply unchanged; rewrite no_spaces_id by (apply spaces_upper; exact F); exact C).
      destruct args; exact E.
    - apply upper_to_upper.
    - apply trimmed_text, F.
    - exact N4.
    - apply trimmed_text, F.
    - exact N1.
    - exact N2.
    - exact N3.
    - apply no_array. rewrite In_upper by reflexivity. exact N3. }
  destruct p as [|s [|n [|]]]; cbn [path_ok]; try contradiction.
  - intros Ns C A. cbn [map join] in *. destruct C as [C|(U & S)]; [congruence|]. destruct (unquoted_facts s U) as (P & F & Q). destruct (plain_words s P) as (W & _). destruct (word_text s W) as (T1 & T2 & T3 & T4 & T5 & T6).
    destruct (lex_word s P) as (L1 & L2). pose proof (lower_upper s W) as Lu. pose proof (lower_same s W) as Ls.
    split; [exact Q|]. split; [|split; [|split; [|split; [exact Ls|]]]].
    + apply G; try assumption. intros I. exact (changed_name s I W U S).
    + exists [Word (to_upper s)]. split; [exact L1|]. split; [|intros _ E; injection E as E; subst s; discriminate A]. intros more M. exact (read_one s (to_upper s) more F Lu Ls M).
    + exists [Word s]. split; [exact L2|]. split; [|intros _ E; injection E as E; subst s; discriminate A]. intros more M. exact (read_one s s more F Ls Ls M).
    + intros [E|[E|[]]]; assert (E2 := f_equal to_lower E); rewrite Lu in E2; subst s; [discriminate A|discriminate U].
  - intros (Ns & Nn) C _. cbn [map join] in *. cbn [clear_path forallb] in C. apply andb_true_iff in C as [Us C]. apply andb_true_iff in C as [Un _].
    destruct (unquoted_facts s Us) as (Ps & Fs & Qs). destruct (plain_words s Ps) as (Ws & _). destruct (word_text s Ws) as (T1 & T2 & T3 & T4 & T5 & T6). destruct (lex_word s Ps) as (L1 & L2).
    destruct (unquoted_facts n Un) as (Pn & Fn & Qn). destruct (plain_words n Pn) as (Wn & _). destruct (word_text n Wn) as (V1 & V2 & V3 & V4 & V5 & V6). destruct (lex_word n Pn) as (K1 & K2).
    rewrite Qs, Qn. split; [reflexivity|].
    assert (Dot : In "."%char (to_upper (s ++ B"." ++ n))) by (apply In_upper; [reflexivity|]; apply in_or_app; right; left; reflexivity).
    split; [|split; [|split; [|split]]].
    + apply G.
      * apply Forall_app. split; [exact T6|]. apply Forall_app. split; [repeat constructor|exact V6].
      * intros I. apply in_app_or in I as [I|[I|I]]; [exact (T1 I)|discriminate I|exact (V1 I)].
      * intros I. apply in_app_or in I as [I|[I|I]]; [exact (T2 I)|discriminate I|exact (V2 I)].
      * intros I. apply in_app_or in I as [I|[I|I]]; [exact (T5 I)|discriminate I|exact (V5 I)].
      * intros I. revert Dot. generalize (to_upper (s ++ B"." ++ n)), I. clear. intros t I. vm_compute in I. repeat (destruct I as [<-|I]; [vm_compute; intuition discriminate|]). contradiction.
      * destruct s; [congruence|discriminate].
    + exists [Word (to_upper s); Sym "."; Word (to_upper n)]. split; [|split; [|discriminate 2]].
      * rewrite !to_upper_app. exact (lexed_app _ _ [_] _ [_; _] _ (proj1 (lexed_plain s (B"." ++ to_upper n) Ps ltac:(cbn; repeat split; discriminate))) (lex_dot _ _ K1)).
      * intros more M. exact (read_two s n _ _ more Fs (lower_upper s Ws) (lower_same s Ws) (lower_upper n Wn) M).
    + exists [Word s; Sym "."; Word n]. split; [|split; [|discriminate 2]].
      * exact (lexed_app _ _ [_] _ [_; _] _ (proj2 (lexed_plain s (B"." ++ n) Ps ltac:(cbn; repeat split; discriminate))) (lex_dot _ _ K2)).
      * intros more M. exact (read_two s n _ _ more Fs (lower_same s Ws) (lower_same s Ws) (lower_same n Wn) M).
    + unfold to_lower. rewrite !map_app. fold (to_lower s) (to_lower n). rewrite (lower_same s Ws), (lower_same n Wn). reflexivity.
    + intros [E|[E|[]]]; rewrite <- E in Dot; revert Dot; vm_compute; intuition discriminate.
Qed.
(** ** What normalizeColumnType makes of the types *)
Lemma split_plain s : trimmed s -> ~ In ")"%char s -> split_type s = Ok (to_upper s, [], [], []).
Proof.
  intros T N. rewrite <- (split_type_plain (to_upper s)); [|apply upper_to_upper|apply trimmed_upper; exact T|rewrite In_upper by reflexivity; exact N].
  unfold split_type. rewrite (trim_space_id s T), (trim_space_id (to_upper s) (trimmed_upper s T)), to_upper_idem. reflexivity.
Qed.
Lemma to_upper_B s : to_upper (B"(" ++ s) = B"(" ++ to_upper s /\ to_upper (B")" ++ s) = B")" ++ to_upper s /\ to_upper (B"," ++ s) = B"," ++ to_upper s.
Proof. repeat split; rewrite to_upper_app; reflexivity. Qed.
Lemma split_args_ b args a : trimmed b -> b <> [] -> trimmed (b ++ a) -> ~ In "("%char b -> ~ In ")"%char a -> trimmed args ->
  split_type (b ++ B"(" ++ args ++ B")" ++ a) = Ok (to_upper b,
    fst (match cut_byte ","%char (to_upper args) with Some (x, y) => (trim_space x, trim_space y) | None => (trim_space (to_upper args), []) end),
    snd (match cut_byte ","%char (to_upper args) with Some (x, y) => (trim_space x, trim_space y) | None => (trim_space (to_upper args), []) end), trim_space (to_upper a)).
Proof.
  intros Tb Nb Ta P1 P2 Tg. unfold split_type.
  assert (T : trimmed (b ++ B"(" ++ args ++ B")" ++ a)).
  { split.
    - apply clean_app; [apply Tb|]. intros ->. congruence.
    - rewrite !rev_app_distr. destruct Ta as [_ Ta]. rewrite rev_app_distr in Ta. rewrite <- !app_assoc. apply clean_app; [|intros; reflexivity].
      destruct (rev a) as [|c r] eqn:E; [exact I|]. exact Ta. }
  rewrite (trim_space_id _ T), !to_upper_app. change (to_upper (B"(")) with (B"("). change (to_upper (B")")) with (B")").
  change (to_upper b ++ B"(" ++ to_upper args ++ B")" ++ to_upper a) with (to_upper b ++ "("%char :: (to_upper args ++ ")"%char :: to_upper a)).
  rewrite cut_byte_app by (rewrite In_upper by reflexivity; exact P1). rewrite cut_last_app by (rewrite In_upper by reflexivity; exact P2).
  rewrite (trim_space_id (to_upper args) (trimmed_upper _ Tg)). rewrite (trim_space_id (to_upper b) (trimmed_upper _ Tb)).
  destruct (cut_byte ","%char (to_upper args)) as [[x y]|]; cbn [fst snd]; rewrite ?(trim_space_id (to_upper args) (trimmed_upper _ Tg)); reflexivity.
Qed.
Lemma norm_plain b a N arr : Normal b a N false -> normalize_column_type Postgres (b ++ a ++ array_text arr) = Ok (N ++ array_text arr, [], []).
Proof.
  intros (E & U & T1 & N1 & T2 & P1 & P2 & P3 & S). unfold normalize_column_type. rewrite app_assoc.
  assert (T : trimmed ((b ++ a) ++ array_text arr)).
  { destruct arr; cbn [array_text]; [|rewrite app_nil_r; exact T2]. split.
    - apply clean_app; [apply T2|]. intros; reflexivity.
    - rewrite rev_app_distr. reflexivity. }
  rewrite (split_plain _ T).
  - destruct arr; cbn [array_text].
    + rewrite to_upper_app. change (to_upper (B"[]")) with (B"[]"). rewrite has_suffix_app, trim_suffix_app. rewrite E. reflexivity.
    + rewrite !app_nil_r. replace (has_suffix (to_upper (b ++ a)) (B"[]")) with false; [rewrite E; reflexivity|].
      symmetry. apply no_array. rewrite In_upper by reflexivity. exact P3.
  - intros I. apply in_app_or in I as [I|I]; [exact (P2 I)|]. destruct arr; cbn in I; intuition discriminate.
Qed.
Lemma arg_text a : plain_arg a = true -> trimmed a /\ ~ In ","%char a /\ a <> [] /\ trimmed (to_upper a).
Proof.
  destruct a as [|c a]; [discriminate|]. unfold plain_arg. intros H. destruct (word_text (c :: a) H) as (_ & _ & K & _ & _ & F). pose proof (trimmed_text _ F) as T.
  split; [exact T|]. split; [exact K|]. split; [discriminate|]. apply trimmed_upper. exact T.
Qed.
Lemma norm_args b a N l : Normal b a N true -> forallb plain_arg l = true -> l <> [] -> List.length l <= 2 ->
  normalize_column_type Postgres (b ++ args_text l ++ a) = Ok (N, to_upper (hd [] l), to_upper (hd [] (tl l))).
Proof.
  intros (E & U & T1 & N1 & T2 & P1 & P2 & P3 & S) P Nl L. unfold normalize_column_type.
  assert (P2a : ~ In ")"%char a) by (intros I; apply P2; apply in_or_app; right; exact I).
  assert (Nb : has_suffix (to_upper b) (B"[]") = false) by (apply no_array; rewrite In_upper by reflexivity; intros I; apply P3; apply in_or_app; left; exact I).
  destruct l as [|x [|y [|]]]; cbn [List.length] in L; [congruence| | |lia].
  - cbn [forallb] in P. apply andb_true_iff in P as [P _]. destruct (arg_text x P) as (Tx & Cx & _ & Ux).
    cbn [args_text join hd tl]. rewrite <- !app_assoc. rewrite (split_args_ b x a T1 N1 T2 P1 P2a Tx).
    replace (cut_byte ","%char (to_upper x)) with (@None (bytes * bytes)) by (symmetry; apply cut_byte_None_iff; rewrite In_upper by reflexivity; exact Cx).
    cbn [fst snd]. rewrite (trim_space_id _ Ux), Nb, E. reflexivity.
  - cbn [forallb] in P. apply andb_true_iff in P as [P P']. apply andb_true_iff in P' as [P' _]. destruct (arg_text x P) as (Tx & Cx & Nx & Ux). destruct (arg_text y P') as (Ty & Cy & Ny & Uy).
    cbn [args_text join hd tl].
    assert (T : trimmed (x ++ B"," ++ y)).
    { split; [apply clean_app; [apply Tx|congruence]|]. rewrite !rev_app_distr, <- app_assoc. apply clean_app; [apply Ty|]. intros; reflexivity. }
    replace (b ++ (B"(" ++ (x ++ B"," ++ y) ++ B")") ++ a) with (b ++ B"(" ++ (x ++ B"," ++ y) ++ B")" ++ a) by (rewrite <- !app_assoc; reflexivity).
    rewrite (split_args_ b _ a T1 N1 T2 P1 P2a T). rewrite !to_upper_app. change (to_upper (B",")) with (B",").
    change (to_upper x ++ B"," ++ to_upper y) with (to_upper x ++ ","%char :: to_upper y). rewrite cut_byte_app by (rewrite In_upper by reflexivity; exact Cx).
    cbn [fst snd]. rewrite (trim_space_id _ Ux), (trim_space_id _ Uy), Nb, E. reflexivity.
Qed.
(** The parts of the text of a type. *)
Lemma format_parts t : path_ok (pg_path t) -> clear_path (pg_path t) -> exists b a N, Normal b a N (some (pg_args t)) /\ Base (pg_path t) (some (pg_args t)) N
  /\ format_type t = b ++ args_text (pg_args t) ++ a ++ array_text (pg_array t).
Proof.
  intros O C. destruct t as [p l arr]. cbn [pg_path pg_args pg_array] in *. 
  assert (Or : (exists n q, p = [n] /\ assoc n pg_names = Some q) \/ match p with [n] => assoc n pg_names = None | _ => True end).
  { destruct p as [|n [|]]; try (right; exact I). destruct (assoc n pg_names) as [q|] eqn:E; [left; exists n, q; split; [reflexivity|exact E]|right; reflexivity]. }
  destruct Or as [(n & (b & a) & -> & E)|U].
  - pose proof (builtin_base n b a (some l) E) as H. unfold format_type. cbn [pg_path pg_args pg_array]. rewrite E.
    replace (match l with [] => true | _ :: _ => false end) with (negb (some l)) by (destruct l; reflexivity).
    destruct (beqb n (B"bpchar") && negb (some l))%bool; destruct H as (N & H1 & H2); [exists n, [], N|exists b, a, N]; (split; [exact H1|]; split; [exact H2|]; destruct arr; reflexivity).
  - destruct (user_base p (some l) O C U) as (Q & Nm & Bs & _). exists (join (B".") p), [], (to_upper (join (B".") p)). split; [exact Nm|]. split; [exact Bs|].
    unfold format_type. cbn [pg_path pg_args pg_array]. rewrite <- Q. destruct p as [|n [|m p]]; [contradiction O| |destruct arr; reflexivity].
    rewrite U. destruct arr; reflexivity.
Qed.
Lemma upper_with t a1 a2 : to_upper (with_args t a1 a2) = with_args (to_upper t) (to_upper a1) (to_upper a2).
Proof. destruct a1, a2; cbn [with_args]; rewrite ?to_upper_app; reflexivity. Qed.
Lemma type_read t r : path_ok (pg_path t) -> clear_type t -> tr_type r = format_type t ->
  exists n a1 a2, normalize_column_type Postgres (tr_type r) = Ok (n, a1, a2)
  /\ exists ts, tokens Postgres (to_upper (with_args (to_lower n) a1 a2)) = Some ts /\ read_pg_type ts = Some t.
Proof.
  intros O (C & P & L & A) E. destruct (format_parts t O C) as (b & a & N & Nm & Bs & F). rewrite E, F. clear E F. destruct t as [p l arr]. cbn [pg_path pg_args pg_array] in *.
  assert (U : upper N) by apply Nm. destruct l as [|x l].
  - exists (N ++ array_text arr), [], []. cbn [args_text app]. split; [exact (norm_plain b a N arr Nm)|]. cbn [with_args]. rewrite upper_of_lower, to_upper_app, U.
    destruct (read_base p N [] arr Bs eq_refl) as (ts & T & R); [cbn; lia|]. cbn [map args_text app] in T. exists ts.
    replace (to_upper (array_text arr)) with (array_text arr) by (destruct arr; reflexivity). split; [exact T|exact R].
  - destruct arr; [discriminate (A eq_refl)|]. cbn [array_text]. rewrite app_nil_r. eexists _, _, _. split; [exact (norm_args b a N (x :: l) Nm P ltac:(discriminate) L)|].
    destruct (read_base p N (x :: l) false Bs P L) as (ts & T & R). exists ts. split; [|exact R]. rewrite <- T. f_equal. rewrite upper_with, upper_of_lower, !to_upper_idem, U. cbn [array_text]. rewrite app_nil_r.
    cbn [forallb] in P. apply andb_true_iff in P as [P P']. destruct x as [|c x]; [discriminate P|].
    destruct l as [|y [|]]; cbn [List.length] in L; [| |lia]; cbn [hd tl map args_text join].
    + change (to_upper (c :: x)) with (to_upper_c c :: to_upper x). cbn [with_args to_upper map]. reflexivity.
    + cbn [forallb] in P'. destruct y as [|e y]; [discriminate P'|]. change (to_upper (c :: x)) with (to_upper_c c :: to_upper x). change (to_upper (e :: y)) with (to_upper_c e :: to_upper y). cbn [with_args]. rewrite <- !app_assoc. reflexivity.
Qed.
(** ** Columns *)
Definition row_of (r : type_cells) : type_row := TypeRow (ce_type r) (ce_enum r) (ce_domain r) (ce_length r) (ce_precision r) (ce_scale r).
Lemma postgres_type c r : pg_ok c -> pg_clear c -> pg_cells c r ->
  exists s ts, dump_type Postgres (row_of r) = Ok s /\ tokens Postgres s = Some ts /\ read_pg_type ts = Some (column_type c).
Proof.
  intros O C R. destruct r as [ty en dm le pr sc]. destruct c as [t|p|p t]; cbn [pg_ok pg_clear pg_cells column_type ce_type ce_enum ce_domain] in *; destruct R as (R1 & -> & ->);
    unfold dump_type, read_type, read_type_postgres, row_of; cbn [ce_type ce_enum ce_domain ce_length ce_precision ce_scale tr_domain tr_enum].
  - destruct (type_read t (TypeRow ty false [] le pr sc) O C R1) as (n & a1 & a2 & E & ts & T & Rd). rewrite E. cbn [bindr]. eexists _, ts. split; [reflexivity|]. split; [exact T|exact Rd].
  - destruct O as (O & U). destruct (user_base p false O C U) as (Q & Nm & _ & Bs & Lw & Nt).
    assert (F : format_type (PgType p [] false) = join (B".") p).
    { unfold format_type. cbn [pg_path pg_args pg_array args_text app]. rewrite <- Q. destruct p as [|n [|m p]]; [contradiction O| |rewrite app_nil_r; reflexivity]. rewrite U. cbn [map join]. rewrite app_nil_r. reflexivity. }
    cbn [tr_type]. rewrite R1, F. pose proof (norm_plain _ [] _ false Nm) as E. cbn [array_text app] in E. rewrite !app_nil_r in E. rewrite E. cbn [bindr].
    replace (beqb (to_upper (join (B".") p)) (B"TIMESTAMPTZ")) with false by (symmetry; apply beqb_neq; intros X; apply Nt; left; symmetry; exact X).
    replace (beqb (to_upper (join (B".") p)) (B"FLOAT")) with false by (symmetry; apply beqb_neq; intros X; apply Nt; right; left; symmetry; exact X).
    destruct (read_base p _ [] false Bs eq_refl) as (ts & T & Rd); [cbn; lia|]. cbn [map args_text array_text app] in T. rewrite !app_nil_r in T.
    exists (join (B".") p), ts. rewrite Lw. split; [reflexivity|]. split; [exact T|exact Rd].
  - destruct O as ((O & U) & Ot). destruct C as ((n & -> & C) & Ct). destruct (type_read t (TypeRow ty false n le pr sc) Ot Ct R1) as (m & a1 & a2 & E & _). cbn [last]. rewrite E. cbn [bindr].
    destruct (user_base [n] false O C U) as (_ & _ & _ & Bs & _). destruct (read_base [n] _ [] false Bs eq_refl) as (ts & T & Rd); [cbn; lia|]. cbn [map join args_text array_text app] in T. rewrite !app_nil_r in T.
    exists n, ts. split; [|split; [exact T|exact Rd]]. destruct n; [contradiction (O eq_refl)|reflexivity].
Qed.

(** ** SQL Server *)
Definition ms_clear (t : SpecLiveType.ms_type) : Prop :=
  ~ In (ms_name t) ms_clr /\ ms_name t <> B"nchar" /\ (In (ms_name t) ms_scaled -> ms_args t = [B"7"]).
Lemma lex_number d n : number n -> Lex d n [Num n].
Proof.
  intros (N & F). destruct n as [|c n]; [congruence|]. cbn [forallb] in F. apply andb_true_iff in F as [F1 F2]. apply lexed_step. apply number_lex; [exact F1|].
  apply forallb_forall. intros x Ix. rewrite (digit_continue x (proj1 (forallb_forall _ _) F2 x Ix)). reflexivity.
Qed.
Lemma number_same n : number n -> to_upper n = n /\ to_lower n = n /\ n <> B"max" /\ n <> B"-1".
Proof.
  intros (N & F). assert (A : forall c, In c n -> to_upper_c c = c /\ to_lower_c c = c /\ is_digit c = true).
  { intros c I. pose proof (proj1 (forallb_forall _ _) F c I) as D. revert D. clear. chars c; intros; repeat split; congruence. }
  split; [|split; [|split]].
  - unfold to_upper. transitivity (map (fun c => c) n); [apply map_ext_in; intros c I; apply (A c I)|apply map_id].
  - unfold to_lower. transitivity (map (fun c => c) n); [apply map_ext_in; intros c I; apply (A c I)|apply map_id].
  - intros ->. discriminate F.
  - intros ->. discriminate F.
Qed.
Lemma one_arg d w a t : Lex d w [Word w] -> Lex d a [t] -> Lex d (w ++ B"(" ++ a ++ B")") [Word w; Sym "("; t; Sym ")"].
Proof.
  intros W A. change [Word w; Sym "("; t; Sym ")"] with ([Word w] ++ [Sym "("] ++ [t] ++ [Sym ")"]). apply lex_app; [exact W| |ending]. apply lex_fixed; [fix_text|].
  apply lex_app; [exact A| |ending]. apply lex_tokens. destruct d; vm_compute; reflexivity.
Qed.
Lemma two_args d w a b t u : Lex d w [Word w] -> Lex d a [t] -> Lex d b [u] -> Lex d (w ++ B"(" ++ a ++ B"," ++ b ++ B")") [Word w; Sym "("; t; Sym ","; u; Sym ")"].
Proof.
  intros W A C. change [Word w; Sym "("; t; Sym ","; u; Sym ")"] with ([Word w] ++ [Sym "("] ++ [t] ++ [Sym ","] ++ [u] ++ [Sym ")"]). apply lex_app; [exact W| |ending]. apply lex_fixed; [fix_text|].
  apply lex_app; [exact A| |ending]. apply lex_fixed; [fix_text|]. apply lex_app; [exact C| |ending]. apply lex_tokens. destruct d; vm_compute; reflexivity.
Qed.
(** Types that are written without arguments, checked by computation. *)
Definition ms_plain_check (want : list bytes -> bool) (n : bytes) : bool :=
  match normalize_column_type SQLServer n, tokens SQLServer (to_upper n) with
  | Ok (n0, _, _), Some ts =>
      negb (one_of n0 ["VARBINARY"; "BINARY"; "NVARCHAR"; "VARCHAR"; "CHAR"]%string) && negb (beqb n0 (B"NUMERIC"))
      && match read_ms_type ts with Some t => beqb (ms_name t) n && want (ms_args t) | None => false end
  | _, _ => false
  end.
Lemma ms_plain_found n want : ms_plain_check want n = true ->
  exists n0 a b ts l, normalize_column_type SQLServer n = Ok (n0, a, b)
    /\ one_of n0 ["VARBINARY"; "BINARY"; "NVARCHAR"; "VARCHAR"; "CHAR"]%string = false /\ beqb n0 (B"NUMERIC") = false
    /\ tokens SQLServer (to_upper n) = Some ts /\ read_ms_type ts = Some (MsType n l) /\ want l = true.
Proof.
  unfold ms_plain_check. destruct (normalize_column_type SQLServer n) as [[[n0 a] b]| |]; try discriminate. destruct (tokens SQLServer (to_upper n)) as [ts|]; try discriminate.
  intros H. apply andb_prop in H as [H H3]. apply andb_prop in H as [H1 H2]. destruct (read_ms_type ts) as [[m l]|] eqn:Er; [|discriminate H3]. cbn [ms_name ms_args] in H3. apply andb_prop in H3 as [H3 H4].
  apply beqb_eq in H3 as ->. exists n0, a, b, ts, l. repeat split; try assumption; apply negb_true_iff; assumption.
Qed.
Lemma sqlserver_type table t r : SpecLiveType.ms_ok t -> ms_clear t -> ms_cells table t r ->
  exists s ts, dump_type SQLServer (row_of r) = Ok s /\ tokens SQLServer s = Some ts /\ read_ms_type ts = Some t.
Proof.
  intros O (C1 & C2 & C3) (R1 & R2 & R3 & R4 & R5). destruct r as [ty en dm le pr sc]. cbn [ce_type ce_enum ce_domain ce_length ce_precision ce_scale] in *. subst en dm.
  destruct t as [n l]. cbn [ms_name ms_args] in *. replace (bmem n ms_clr) with false in R3 by (destruct (bmem n ms_clr) eqn:E; [apply bmem_In in E; contradiction|reflexivity]). subst ty.
  unfold dump_type, read_type, read_type_sqlserver, row_of. cbn [ce_type ce_enum ce_domain ce_length ce_precision ce_scale tr_domain tr_enum tr_type tr_length tr_precision tr_scale].
  unfold SpecLiveType.ms_ok in O. cbn [ms_name ms_args] in O.
  destruct O as [(I & a & -> & Na)|[(I & p & s & -> & Np & Ns)|[(I & s & -> & Ns)|(I & ->)]]]; cbn [ms_name ms_args] in *.
  - pose proof (R4 I a eq_refl) as Le.
    assert (A : exists t, (if beqb le (B"-1") then B"MAX" else le) = to_upper a /\ Lex SQLServer (to_upper a) [t]
      /\ forall more, argument_token (t :: more) = Some (a, more)).
    { rewrite Le. clear R4 Le. destruct Na as [Na| ->].
      - destruct (number_same a Na) as (Ua & La & Nm & N1). rewrite (proj2 (beqb_neq a (B"max")) Nm), (proj2 (beqb_neq a (B"-1")) N1), Ua. exists (Num a). split; [reflexivity|].
        split; [exact (lex_number _ a Na)|]. intros more. cbn [argument_token]. rewrite La. reflexivity.
      - exists (Word (B"MAX")). split; [reflexivity|]. split; [apply lex_tokens; vm_compute; reflexivity|]. reflexivity. }
    destruct A as (u & A1 & A2 & A3).
    assert (W : normalize_column_type SQLServer n = Ok (to_upper n, [], []) /\ one_of (to_upper n) ["VARBINARY"; "BINARY"; "NVARCHAR"; "VARCHAR"; "CHAR"]%string = true
      /\ Lex SQLServer (to_upper n) [Word (to_upper n)] /\ to_lower (to_upper n) = n).
    { clear -I C2. cbn [ms_sized map In] in I. repeat (destruct I as [<-|I]; [first [exfalso; apply C2; reflexivity | repeat split; try (vm_compute; reflexivity); apply lex_tokens; vm_compute; reflexivity]|]). contradiction. }
    destruct W as (W1 & W2 & W3 & W4). rewrite W1. cbn [bindr]. rewrite W2. 
    assert (A0 : forall X, X = to_upper a -> to_upper (n ++ B"(" ++ X ++ B")") = to_upper n ++ B"(" ++ to_upper a ++ B")") by (intros X ->; rewrite !to_upper_app, to_upper_idem; reflexivity).
    eexists (to_upper n ++ B"(" ++ to_upper a ++ B")"), _. split; [exact (f_equal Ok (A0 _ A1))|]. split.
    + apply lex_tokens. exact (one_arg _ _ _ _ W3 A2).
    + unfold read_ms_type, read_args, parens. cbn [sym]. change (ceqb "("%char "("%char) with true. cbn [andthen]. unfold tlist. cbn [List.length tlist_]. rewrite A3. cbn [andthen sym].
      change (ceqb ","%char ")"%char) with false. change (ceqb ")"%char ")"%char) with true. cbn [andthen]. rewrite W4. unfold default_args.
      replace (bmem n ms_exact) with false; [reflexivity|]. clear -I. cbn [ms_sized map In] in I. repeat (destruct I as [<-|I]; [reflexivity|]). contradiction.
  - destruct (R5 I p s eq_refl) as (-> & ->).
    assert (W : normalize_column_type SQLServer n = Ok (B"NUMERIC", [], []) /\ Lex SQLServer (to_upper n) [Word (to_upper n)] /\ to_lower (to_upper n) = n).
    { clear -I. cbn [ms_exact map In] in I. repeat (destruct I as [<-|I]; [repeat split; try (vm_compute; reflexivity); apply lex_tokens; vm_compute; reflexivity|]). contradiction. }
    destruct W as (W1 & W3 & W4). rewrite W1. cbn [bindr]. change (one_of (B"NUMERIC") ["VARBINARY"; "BINARY"; "NVARCHAR"; "VARCHAR"; "CHAR"]%string) with false. change (beqb (B"NUMERIC") (B"NUMERIC")) with true. cbv iota.
    destruct (number_same p Np) as (Up & Lp & _). destruct (number_same s Ns) as (Us & Ls & _).
    assert (E : match p, s with [], _ => n | c :: p', [] => n ++ B"(" ++ (c :: p') ++ B")" | c :: p', e :: s' => n ++ B"(" ++ (c :: p') ++ B"," ++ (e :: s') ++ B")" end = n ++ B"(" ++ p ++ B"," ++ s ++ B")").
    { destruct p; [destruct Np; congruence|]. destruct s; [destruct Ns; congruence|]. reflexivity. }
    assert (A0 : forall X, X = n ++ B"(" ++ p ++ B"," ++ s ++ B")" -> to_upper X = to_upper n ++ B"(" ++ p ++ B"," ++ s ++ B")") by (intros X ->; rewrite !to_upper_app, Up, Us; reflexivity).
    eexists (to_upper n ++ B"(" ++ p ++ B"," ++ s ++ B")"), _. split; [exact (f_equal Ok (A0 _ E))|]. split.
    + apply lex_tokens. exact (two_args _ _ _ _ _ _ W3 (lex_number _ p Np) (lex_number _ s Ns)).
    + unfold read_ms_type, read_args, parens. cbn [sym]. change (ceqb "("%char "("%char) with true. cbn [andthen]. unfold tlist. cbn [List.length tlist_ argument_token andthen sym].
      change (ceqb ","%char ","%char) with true. cbn [argument_token andthen sym].
      change (ceqb ","%char ")"%char) with false. change (ceqb ")"%char ")"%char) with true. cbn [andthen]. rewrite W4, Lp, Ls. reflexivity.
  - pose proof (C3 I) as E. injection E as ->.
    destruct (ms_plain_found n (fun l => match l with [a] => beqb a (B"7") | _ => false end)) as (n0 & a & b & ts & l & W1 & W2 & W3 & W4 & W5 & W6).
    { clear - I. revert n I. apply forallb_forall. vm_compute. reflexivity. }
    rewrite W1. cbn [bindr]. rewrite W2, W3. exists (to_upper n), ts. split; [reflexivity|]. split; [exact W4|].
    rewrite W5. destruct l as [|x [|]]; try discriminate W6. apply beqb_eq in W6 as ->. reflexivity.
  - apply in_app_or in I as [I|I]; [|contradiction].
    destruct (ms_plain_found n (fun l => match l with [] => true | _ => false end)) as (n0 & a & b & ts & l & W1 & W2 & W3 & W4 & W5 & W6).
    { clear - I. revert n I. apply forallb_forall. vm_compute. reflexivity. }
    rewrite W1. cbn [bindr]. rewrite W2, W3. exists (to_upper n), ts. split; [reflexivity|]. split; [exact W4|].
    rewrite W5. destruct l; [reflexivity|discriminate W6].
Qed.

(** ** SQLite and MySQL *)
Lemma text_type d s ts r : d = SQLite \/ d = MySQL -> tokens d s = Some ts -> forallb plain_token ts = true -> has_suffix s (B" GENERATED ALWAYS") = false ->
  (In ")"%char s -> In "("%char s) -> text_cells s r ->
  exists t us, dump_type d (row_of r) = Ok t /\ tokens d t = Some us /\ us = map up ts.
Proof.
  intros D T P S Br (R1 & R2 & R3). exists (to_upper s), (map up ts). split; [|split; [|reflexivity]].
  - unfold dump_type, row_of, read_type. cbn [tr_domain tr_enum tr_type]. rewrite R1, R2, R3. destruct D as [-> | ->].
    + rewrite trim_suffix_none by exact S. reflexivity.
    + destruct (normalize_type_total MySQL s) as (x & ->); [tauto|]. reflexivity.
  - apply lex_tokens. apply lex_upper; [apply lex_tokens; exact T|exact P].
Qed.
