(** Single statements are read as they are meant. *)
From Verif Require Import GoStr GoStrFacts TrimFacts ModelSq SpecSql SqFacts SpecInsert SpecTokens TokenFacts TokenReads SpecDdl ModelCatalog ModelDdl ModelDiff ModelDiffSql ModelDdlText SpecDdlText DdlTokens DdlColumns DdlConstraints DdlIndexes DdlActions.
From Coq Require Import ZifyBool ZifyNat.

(** A text that any other may follow. *)
Definition Closed (d : dialect) (s : bytes) (ts : toks) : Prop := forall b, lexed d (s ++ b) ts b.
Lemma closed_nil d : Closed d [] [].
Proof. intros b. apply lexed_none. Qed.
Lemma closed_fixed d a s ts us : fixed a ts -> Closed d s us -> Closed d (a ++ s) (ts ++ us).
Proof. intros F C b. rewrite <- !app_assoc. exact (lexed_app d _ _ _ _ _ (fixed_lexed d a ts _ F) (C b)). Qed.
Lemma closed_lex d a s ts us : Lex d a ts -> ends s -> s <> [] -> Closed d s us -> Closed d (a ++ s) (ts ++ us).
Proof.
  intros A E N C b. rewrite <- !app_assoc. apply (lexed_app d _ _ (s ++ b)); [|exact (C b)]. apply (lexed_more d a ts _ A). destruct s as [|x s]; [congruence|exact E].
Qed.
Lemma closed_app d a s ts us : Closed d a ts -> Closed d s us -> Closed d (a ++ s) (ts ++ us).
Proof. intros A C b. rewrite <- !app_assoc. exact (lexed_app d _ _ _ _ _ (A _) (C b)). Qed.
Lemma closed_lexed d s ts : Closed d s ts -> Lex d s ts.
Proof. intros C. specialize (C []). rewrite app_nil_r in C. exact C. Qed.
Lemma fixed_closed d s ts : fixed s ts -> Closed d s ts.
Proof. intros F b. exact (fixed_lexed d s ts b F). Qed.
Lemma closed_end d a ts : Lex d a ts -> Closed d (a ++ B";" ++ NL) (ts ++ [Sym ";"]).
Proof. intros L. apply (closed_lex d _ _ _ _ L); [ending|discriminate|]. exact (fixed_closed d (B";" ++ NL) [Sym ";"] ltac:(fix_text)). Qed.
Lemma closed_end_fixed d a s ts us : fixed a ts -> Closed d (s ++ B";" ++ NL) (us ++ [Sym ";"]) -> Closed d ((a ++ s) ++ B";" ++ NL) ((ts ++ us) ++ [Sym ";"]).
Proof. intros F C. rewrite <- !app_assoc. exact (closed_fixed d a _ ts _ F C). Qed.

(** A statement and how it is read. *)
Definition says (d : dialect) (s : bytes) (l : list statement) : Prop :=
  exists t ts, Closed d s (t :: ts) /\ forall more, read_statement d (t :: ts ++ more) = Some (l, more).
Lemma says_simple d w ts s l : Closed d s (Word w :: ts) -> beqb w (B"IF") = false -> (forall more, read_simple d (Word w :: ts ++ more) = Some (l, more)) -> says d s l.
Proof.
  intros C I R. exists (Word w), ts. split; [exact C|]. intros more. unfold read_statement. rewrite (R more). destruct d; try reflexivity.
  assert (read_if_schema (Word w :: ts ++ more) = None) as ->; [|reflexivity]. unfold read_if_schema. destruct (ts ++ more) as [|[x|x|x|x|x|x] [|[y|y|y|y|y|y] [|[z|z|z|z|z|z] [|[v|v|v|v|v|v] r]]]]; try reflexivity. rewrite I. reflexivity.
Qed.
Lemma end_read l more : end_of (Sym ";" :: more) l = Some (l, more).
Proof. reflexivity. Qed.
Lemma name_not_if d n r : plain_name d n -> kws [B"IF"; B"EXISTS"] (ntok d n :: Sym ";" :: r) = None /\ kws [B"IF"; B"NOT"; B"EXISTS"] (ntok d n :: Sym ";" :: r) = None.
Proof.
  intros P. cbn [kws]. destruct (kw (B"IF") (ntok d n :: Sym ";" :: r)) as [r'|] eqn:K; [|split; reflexivity]. apply kw_inv in K as (w & E & _). injection E as _ <-. split; reflexivity.
Qed.
(** A path is never preceded by IF EXISTS by accident. *)
Lemma path_not_if d q r : (exists t r', r = t :: r' /\ kw (B"EXISTS") r = None) -> if_exists_ (qtoks d q ++ r) = qtoks d q ++ r.
Proof.
  intros (t & r' & E & K). unfold if_exists_, skip, has. assert (kws [B"IF"; B"EXISTS"] (qtoks d q ++ r) = None) as ->; [|reflexivity]. cbn [kws]. unfold qtoks. destruct (fst q).
  - cbn [app]. destruct (kw (B"IF") (ntok d (snd q) :: r)) as [r2|] eqn:K2; [|reflexivity]. apply kw_inv in K2 as (w & E2 & _). injection E2 as _ <-. cbn [andthen]. rewrite K. reflexivity.
  - cbn [app]. match goal with |- context [kw (B"IF") ?z] => destruct (kw (B"IF") z) as [r2|] eqn:K2; [|reflexivity] end. apply kw_inv in K2 as (w & E2 & _). injection E2 as _ <-. reflexivity.
Qed.
Lemma end_not_exists r : exists t r', Sym ";" :: r = t :: r' /\ kw (B"EXISTS") (Sym ";" :: r) = None.
Proof. exists (Sym ";"), r. split; reflexivity. Qed.

(** ** DROP *)
Lemma says_drop_table d q b : plain_table d q -> says d (B"DROP TABLE " ++ opt b (B"IF EXISTS ") ++ qtext d q ++ B";" ++ NL) [DropTable (path_of q)].
Proof.
  intros P. apply (says_simple d (B"DROP") (Word (B"TABLE") :: (if b then [Word (B"IF"); Word (B"EXISTS")] else []) ++ qtoks d q ++ [Sym ";"])); [|reflexivity|].
  - pose proof (closed_end d _ _ (lex_qname d q)) as C. destruct b; cbn [opt app].
    + exact (closed_fixed d (B"DROP TABLE IF EXISTS ") _ [_; _; _; _] _ ltac:(fix_text) C).
    + exact (closed_fixed d (B"DROP TABLE ") _ [_; _] _ ltac:(fix_text) C).
  - intros more. cbn [app]. rewrite <- !app_assoc. cbn [app].
    match goal with |- read_simple _ (_ :: _ :: ?z) = _ => change (read_simple d (Word (B"DROP") :: Word (B"TABLE") :: z)) with (let? (p, r) := path d (if_exists_ z) in end_of r [DropTable p]) end.
    assert (if_exists_ ((if b then [Word (B"IF"); Word (B"EXISTS")] else []) ++ qtoks d q ++ Sym ";" :: more) = qtoks d q ++ Sym ";" :: more) as ->.
    { destruct b; [reflexivity|]. apply path_not_if. apply end_not_exists. }
    rewrite (read_path d q (Sym ";" :: more) P eq_refl). reflexivity.
Qed.
Lemma says_drop_index d q b : d <> SQLServer -> plain_table d q -> says d (B"DROP INDEX " ++ opt b (B"IF EXISTS ") ++ qtext d q ++ B";" ++ NL) [DropIndex (path_of q) None].
Proof.
  intros D P. apply (says_simple d (B"DROP") (Word (B"INDEX") :: (if b then [Word (B"IF"); Word (B"EXISTS")] else []) ++ qtoks d q ++ [Sym ";"])); [|reflexivity|].
  - pose proof (closed_end d _ _ (lex_qname d q)) as C. destruct b; cbn [opt app].
    + exact (closed_fixed d (B"DROP INDEX IF EXISTS ") _ [_; _; _; _] _ ltac:(fix_text) C).
    + exact (closed_fixed d (B"DROP INDEX ") _ [_; _] _ ltac:(fix_text) C).
  - intros more. cbn [app]. rewrite <- !app_assoc. cbn [app].
    match goal with |- read_simple _ (_ :: _ :: ?z) = _ => change (read_simple d (Word (B"DROP") :: Word (B"INDEX") :: z)) with (let? (p, r) := path d (if_exists_ z) in
      match d with SQLServer => let? r := kw (B"ON") r in let? (q, r) := path d r in end_of r [DropIndex p (Some q)] | _ => end_of r [DropIndex p None] end) end.
    assert (if_exists_ ((if b then [Word (B"IF"); Word (B"EXISTS")] else []) ++ qtoks d q ++ Sym ";" :: more) = qtoks d q ++ Sym ";" :: more) as ->.
    { destruct b; [reflexivity|]. apply path_not_if. apply end_not_exists. }
    rewrite (read_path d q (Sym ";" :: more) P eq_refl). destruct d; try congruence; reflexivity.
Qed.
Lemma bare_text d n : qtext d ([], n) = quote_identifier d n.
Proof. reflexivity. Qed.
Lemma says_drop_index_on n q : plain_name SQLServer n -> plain_table SQLServer q ->
  says SQLServer (B"DROP INDEX " ++ quote_identifier SQLServer n ++ B" ON " ++ qtext SQLServer q ++ B";" ++ NL) [DropIndex [n] (Some (path_of q))].
Proof.
  intros P Q. apply (says_simple SQLServer (B"DROP") (Word (B"INDEX") :: [ntok SQLServer n] ++ Word (B"ON") :: qtoks SQLServer q ++ [Sym ";"])); [|reflexivity|].
  - apply (closed_fixed SQLServer (B"DROP INDEX ") _ [_; _] _ ltac:(fix_text)). apply (closed_lex SQLServer _ _ [_] _ (lex_name _ _)); [ending|discriminate|].
    exact (closed_fixed SQLServer (B" ON ") _ [_] _ ltac:(fix_text) (closed_end SQLServer _ _ (lex_qname SQLServer q))).
  - intros more. cbn [app]. rewrite <- !app_assoc. cbn [app].
    match goal with |- read_simple _ (_ :: _ :: ?z) = _ => change (read_simple SQLServer (Word (B"DROP") :: Word (B"INDEX") :: z)) with (let? (p, r) := path SQLServer (if_exists_ z) in
      let? r := kw (B"ON") r in let? (q, r) := path SQLServer r in end_of r [DropIndex p (Some q)]) end.
    pose proof (path_not_if SQLServer ([], n) (Word (B"ON") :: qtoks SQLServer q ++ Sym ";" :: more) ltac:(eexists; eexists; split; reflexivity)) as E.
    change (qtoks SQLServer ([], n)) with [ntok SQLServer n] in E. cbn [app] in E. unfold toks in *. rewrite E.
    pose proof (read_path SQLServer ([], n) (Word (B"ON") :: qtoks SQLServer q ++ Sym ";" :: more) (conj (plain_none _) P) eq_refl) as R.
    change (qtoks SQLServer ([], n)) with [ntok SQLServer n] in R. cbn [app path_of fst snd] in R. unfold toks in *. rewrite R. cbn [andthen]. kw_step. rewrite (read_path SQLServer q (Sym ";" :: more) Q eq_refl). reflexivity.
Qed.
Lemma says_drop_schema d n : plain_name d n -> says d (write_drop_schema d n) [DropSchema n (match d with Postgres => true | _ => false end)].
Proof.
  intros P. pose proof (closed_end d _ _ (lex_name d n)) as C. unfold write_drop_schema.
  destruct (match d with Postgres => 0 | SQLServer => 1 | _ => 2 end) as [|[|k]] eqn:Ed.
  - assert (d = Postgres) as -> by (destruct d; try discriminate Ed; reflexivity).
    apply (says_simple Postgres (B"DROP") (Word (B"SCHEMA") :: Word (B"IF") :: Word (B"EXISTS") :: ntok Postgres n :: [Word (B"CASCADE"); Sym ";"])); [|reflexivity|].
    + apply (closed_fixed Postgres (B"DROP SCHEMA IF EXISTS ") _ [_; _; _; _] _ ltac:(fix_text)). apply (closed_lex Postgres _ _ [_] _ (lex_name _ _)); [ending|discriminate|]. exact (fixed_closed Postgres (B" CASCADE;" ++ NL) _ ltac:(fix_text)).
    + intros more. cbn [app]. match goal with |- read_simple _ (_ :: _ :: _ :: _ :: ?z) = _ => change (read_simple Postgres (Word (B"DROP") :: Word (B"SCHEMA") :: Word (B"IF") :: Word (B"EXISTS") :: z)) with (let? (n, r) := name Postgres z in let '(b, r) := has [B"CASCADE"] r in end_of r [DropSchema n b]) end.
      rewrite (read_name _ n _ P). reflexivity.
  - assert (d = SQLServer) as -> by (destruct d; try discriminate Ed; reflexivity).
    apply (says_simple SQLServer (B"DROP") (Word (B"SCHEMA") :: ntok SQLServer n :: [Sym ";"])); [|reflexivity|].
    + exact (closed_fixed SQLServer (B"DROP SCHEMA ") _ [_; _] _ ltac:(fix_text) C).
    + intros more. cbn [app]. match goal with |- read_simple _ (_ :: _ :: ?z) = _ => change (read_simple SQLServer (Word (B"DROP") :: Word (B"SCHEMA") :: z)) with (let? (n, r) := name SQLServer (if_exists_ z) in let '(b, r) := has [B"CASCADE"] r in end_of r [DropSchema n b]) end.
      unfold if_exists_, skip, has at 1. rewrite (proj1 (name_not_if SQLServer n more P)). cbn [snd]. rewrite (read_name _ n _ P). reflexivity.
  - assert (S : says d (B"DROP SCHEMA IF EXISTS " ++ quote_identifier d n ++ B";" ++ NL) [DropSchema n false]).
    { apply (says_simple d (B"DROP") (Word (B"SCHEMA") :: Word (B"IF") :: Word (B"EXISTS") :: ntok d n :: [Sym ";"])); [|reflexivity|].
      + exact (closed_fixed d (B"DROP SCHEMA IF EXISTS ") _ [_; _; _; _] _ ltac:(fix_text) C).
      + intros more. cbn [app]. match goal with |- read_simple _ (_ :: _ :: _ :: _ :: ?z) = _ => change (read_simple d (Word (B"DROP") :: Word (B"SCHEMA") :: Word (B"IF") :: Word (B"EXISTS") :: z)) with (let? (n, r) := name d z in let '(b, r) := has [B"CASCADE"] r in end_of r [DropSchema n b]) end.
        rewrite (read_name _ n _ P). reflexivity. }
    destruct d; try discriminate Ed; exact S.
Qed.

(** ** CREATE SCHEMA *)
Lemma says_create_schema d n : In d [Postgres; MySQL] -> plain_name d n -> says d (B"CREATE SCHEMA IF NOT EXISTS " ++ quote_identifier d n ++ B";" ++ NL) [CreateSchema n].
Proof.
  intros D P. apply (says_simple d (B"CREATE") (Word (B"SCHEMA") :: Word (B"IF") :: Word (B"NOT") :: Word (B"EXISTS") :: ntok d n :: [Sym ";"])); [|reflexivity|].
  + exact (closed_fixed d (B"CREATE SCHEMA IF NOT EXISTS ") _ [_; _; _; _; _] _ ltac:(fix_text) (closed_end d _ _ (lex_name d n))).
  + intros more. cbn [app]. match goal with |- read_simple _ (_ :: _ :: _ :: _ :: _ :: ?z) = _ => change (read_simple d (Word (B"CREATE") :: Word (B"SCHEMA") :: Word (B"IF") :: Word (B"NOT") :: Word (B"EXISTS") :: z)) with (let? (n, r) := name d z in end_of r [CreateSchema n]) end.
    rewrite (read_name _ n _ P). reflexivity.
Qed.
(** Two quotes in a row. *)
Fixpoint double (q : ascii) (s : bytes) : bool := match s with x :: t => match t with y :: _ => (ceqb x q && ceqb y q) || double q t | [] => false end | [] => false end.
Lemma double_In q s : double q s = true <-> exists a b, s = a ++ q :: q :: b.
Proof.
  split.
  - induction s as [|x [|y t] IH]; [discriminate|discriminate|]. change (double q (x :: y :: t)) with ((ceqb x q && ceqb y q) || double q (y :: t)). intros H. apply orb_true_iff in H as [H|H].
    + apply andb_true_iff in H as [Hx Hy]. destruct (ceqb_spec x q) as [->|]; [|discriminate Hx]. destruct (ceqb_spec y q) as [->|]; [|discriminate Hy]. exists [], t. reflexivity.
    + destruct (IH H) as (a & b & ->). exists (x :: a), b. reflexivity.
  - intros (a & b & ->). induction a as [|x a IH]; [cbn [app double]; rewrite !ceqb_refl; reflexivity|]. cbn [app]. destruct (a ++ q :: q :: b) as [|y t] eqn:E; [destruct a; discriminate E|]. change (double q (x :: y :: t)) with ((ceqb x q && ceqb y q) || double q (y :: t)). rewrite IH. apply orb_true_r.
Qed.
Lemma double_cons q x s : double q (x :: s) = (ceqb x q && match s with y :: _ => ceqb y q | [] => false end) || double q s.
Proof. destruct s as [|y t]; [cbn; rewrite andb_false_r; reflexivity|reflexivity]. Qed.
Lemma escape_hd q s : hd_error (escape_quote q s) = hd_error s.
Proof. destruct (escape_cases q s) as [->|[(x & s' & -> & Hx & -> & _)|[(c & s'' & -> & -> & _)|(s' & -> & _ & -> & _)]]]; reflexivity. Qed.
Lemma double_escape q c s : c <> q -> double q s = false -> double q (escape_quote c s) = false.
Proof.
  intros N. assert (Hc : ceqb c q = false) by (apply ceqb_neq; exact N). induction s as [s IH] using list_len_ind. intros D.
  destruct (escape_cases c s) as [->|[(x & s' & -> & Hx & -> & _)|[(e & s'' & -> & -> & _)|(s' & -> & _ & -> & _)]]]; [reflexivity| | |].
  - rewrite double_cons in *. apply orb_false_iff in D as [D1 D2]. rewrite (IH s' ltac:(cbn; lia) D2), orb_false_r. pose proof (escape_hd c s') as Hh. destruct (escape_quote c s') as [|y t]; [apply andb_false_r|]. destruct s' as [|y' t']; [discriminate Hh|]. injection Hh as ->. exact D1.
  - rewrite !double_cons in *. rewrite Hc in *. cbn [andb orb] in *. apply (IH (e :: s'') ltac:(cbn; lia)). rewrite double_cons. exact D.
  - rewrite !double_cons in *. rewrite Hc in *. cbn [andb orb] in *. exact (IH s' ltac:(cbn; lia) D).
Qed.
Lemma double_app q s t : double q s = false -> double q t = false -> ~ In q t -> double q (s ++ t) = false.
Proof.
  intros S T N. induction s as [|x s IH]; [exact T|]. cbn [app]. rewrite double_cons in *. apply orb_false_iff in S as [S1 S2]. rewrite (IH S2), orb_false_r. destruct s as [|y s]; [|exact S1]. cbn [app]. destruct t as [|y t]; [apply andb_false_r|]. destruct (ceqb_spec y q) as [->|]; [exfalso; apply N; left; reflexivity|apply andb_false_r].
Qed.
Lemma double_collapse q s : double q s = false -> collapse q s = s.
Proof.
  intros D. apply collapse_id_iff. intros (a & c & b & ->). assert (double q (a ++ q :: q :: c :: b) = true) as E by (apply double_In; eexists; eexists; reflexivity). rewrite E in D. discriminate D.
Qed.
Lemma str_lexed s rest : double squote s = false -> hd_error rest <> Some squote -> lexed SQLServer (squote :: escape_quote squote s ++ squote :: rest) [Str s] rest.
Proof.
  intros D H. apply lexed_step. unfold lex_one. change (is_space squote) with false. rewrite ceqb_refl. unfold lex_strlit. change "'"%char with squote. cbv iota. rewrite (lex_escape squote s rest H). rewrite (double_collapse _ _ D). reflexivity.
Qed.
Lemma escape_before q a s : ~ In q a -> escape_quote q (a ++ s) = a ++ escape_quote q s.
Proof.
  induction a as [|x a IH]; intros N; [reflexivity|]. cbn [app escape_quote]. destruct (ceqb_spec x q) as [->|Nx]; [exfalso; apply N; left; reflexivity|]. f_equal. apply IH. intros I. apply N. right. exact I.
Qed.
Lemma double_quoted n : double squote n = false -> double squote (B"CREATE SCHEMA " ++ quote_identifier SQLServer n) = false.
Proof.
  intros D. unfold quote_identifier. destruct (needs_quoting SQLServer n).
  - change (open_quote SQLServer) with "["%char. change (close_quote SQLServer) with "]"%char. assert (double squote (escape_quote "]"%char n ++ ["]"%char]) = false) as E.
    { apply double_app; [apply double_escape; [discriminate|exact D]|reflexivity|]. intros [E|[]]. discriminate E. }
    revert E. generalize (escape_quote "]"%char n ++ ["]"%char]). intros z E. cbn [app B list_ascii_of_string]. rewrite !double_cons. rewrite E. reflexivity.
  - cbn [app B list_ascii_of_string]. rewrite !double_cons. rewrite D. reflexivity.
Qed.
Lemma says_create_schema_if n : plain_name SQLServer n -> double squote n = false -> says SQLServer (write_create_schema SQLServer n) [CreateSchema n].
Proof.
  intros P D. set (t := B"CREATE SCHEMA " ++ quote_identifier SQLServer n).
  exists (Word (B"IF")), ([Word (B"SCHEMA_ID"); Sym "("] ++ [Str n] ++ [Sym ")"; Word (B"IS"); Word (B"NULL"); Word (B"EXEC"); Sym "("] ++ [Str t] ++ [Sym ")"; Sym ";"]). split.
  - assert (E : write_create_schema SQLServer n = B"IF SCHEMA_ID(" ++ (squote :: escape_quote squote n ++ squote :: B") IS NULL EXEC(" ++ (squote :: escape_quote squote t ++ squote :: B");" ++ NL))).
    { unfold t. rewrite (escape_before squote (B"CREATE SCHEMA ")) by (vm_compute; intuition discriminate). unfold write_create_schema. cbn [B list_ascii_of_string]. rewrite <- !app_assoc. cbn [app]. reflexivity. }
    intros b. rewrite E. rewrite <- !app_assoc. apply (lexed_app SQLServer _ [_; _; _] _ _ _ (fixed_lexed SQLServer (B"IF SCHEMA_ID(") [_; _; _] _ ltac:(fix_text))).
    set (x2 := (B");" ++ NL) ++ b). set (x1 := B") IS NULL EXEC(" ++ squote :: escape_quote squote t ++ squote :: x2).
    match goal with |- lexed _ ?x _ _ => assert (x = squote :: escape_quote squote n ++ squote :: x1) as -> end.
    { unfold x1, x2. cbn [app]. repeat (rewrite <- !app_assoc; cbn [app]). reflexivity. }
    assert (H1 : hd_error x1 <> Some squote) by discriminate. assert (H2 : hd_error x2 <> Some squote) by discriminate.
    apply (lexed_app SQLServer _ [_] _ _ _ (str_lexed n x1 D H1)). unfold x1. clear x1 H1.
    apply (lexed_app SQLServer _ [_; _; _; _; _] _ _ _ (fixed_lexed SQLServer (B") IS NULL EXEC(") [_; _; _; _; _] _ ltac:(fix_text))).
    apply (lexed_app SQLServer _ [_] _ _ _ (str_lexed t x2 (double_quoted n D) H2)). unfold x2.
    exact (fixed_lexed SQLServer (B");" ++ NL) [_; _] _ ltac:(fix_text)).
  - intros more. cbn [app]. unfold read_statement.
    assert (Lt : tokens SQLServer t = Some [Word (B"CREATE"); Word (B"SCHEMA"); ntok SQLServer n]).
    { apply lex_tokens. exact (lex_fixed SQLServer (B"CREATE SCHEMA ") _ [_; _] [_] ltac:(fix_text) (lex_name _ _)). }
    assert (read_if_schema (Word (B"IF") :: Word (B"SCHEMA_ID") :: Sym "(" :: Str n :: Sym ")" :: Word (B"IS") :: Word (B"NULL") :: Word (B"EXEC") :: Sym "(" :: Str t :: Sym ")" :: Sym ";" :: more) = Some ([CreateSchema n], more)) as ->; [|reflexivity].
    cbn [read_if_schema]. change (beqb (B"IF") (B"IF") && beqb (B"SCHEMA_ID") (B"SCHEMA_ID") && ceqb "(" "(" && ceqb ")" ")") with true. cbv iota.
    match goal with |- context [kws ?k (Word ?x :: Word ?y :: Word ?z :: ?r)] => change (kws k (Word x :: Word y :: Word z :: r)) with (Some r) end. cbn [andthen]. change (ceqb "(" "(" && ceqb ")" ")") with true. cbv iota. rewrite Lt. cbn [andthen].
    match goal with |- context [kws ?k (Word ?x :: Word ?y :: ?r)] => change (kws k (Word x :: Word y :: r)) with (Some r) end. cbn [andthen]. rewrite (ntok_name _ n P). cbn [andthen]. rewrite beqb_refl. reflexivity.
Qed.

(** ** Lists on lines *)
Definition later (l : list toks) : toks := flat_map (fun t => Sym "," :: t) l.
Lemma commas_later x l : commas (x :: l) = x ++ later l.
Proof.
  revert x. induction l as [|y l IH]; intros x; [cbn [commas later flat_map]; rewrite app_nil_r; reflexivity|]. rewrite commas_cons, IH. reflexivity.
Qed.
Lemma lines_piece d b l tss : fixed b [Sym ","] -> b <> [] -> ends b -> Forall2 (Lex d) l tss -> Piece d (flat_map (fun y => b ++ y) l) (later tss).
Proof.
  intros F N E H. induction H as [|x t l tss X H IH]; [apply piece_nil|]. cbn [flat_map later]. rewrite <- app_assoc. split; [|destruct b; [congruence|exact E]].
  apply (lex_fixed d b _ [_] _ F). exact (piece_after d _ _ _ _ X IH).
Qed.
Lemma after_first d l tss : l <> [] -> Forall2 (Lex d) l tss -> Piece d (after (NL ++ B"    ") (NL ++ B"    ,") l) (commas tss).
Proof.
  intros N H. destruct H as [|x t l tss X H]; [congruence|]. unfold after. rewrite commas_later.
  refine (piece_fixed d (NL ++ B"    ") _ [] _ ltac:(fix_text) ltac:(discriminate) ltac:(ending) _). apply (piece_after d _ _ _ _ X).
  exact (lines_piece d (NL ++ B"    ,") _ _ ltac:(fix_text) ltac:(discriminate) ltac:(ending) H).
Qed.
Lemma after_rest d l tss : Forall2 (Lex d) l tss -> Piece d (after (NL ++ NL ++ B"    ,") (NL ++ B"    ,") l) (later tss).
Proof.
  intros H. destruct H as [|x t l tss X H]; [apply piece_nil|]. unfold after. cbn [later flat_map].
  refine (piece_fixed d (NL ++ NL ++ B"    ,") _ [_] _ ltac:(fix_text) ltac:(discriminate) ltac:(ending) _). apply (piece_after d _ _ _ _ X).
  exact (lines_piece d (NL ++ B"    ,") _ _ ltac:(fix_text) ltac:(discriminate) ltac:(ending) H).
Qed.
Lemma exists_each {A C D} (R : A -> C -> D -> Prop) (f : A -> D) (l : list A) : (forall a, In a l -> exists c, R a c (f a)) -> exists cs, Forall2 (fun a c => R a c (f a)) l cs.
Proof.
  induction l as [|a l IH]; intros H; [exists []; constructor|]. destruct (H a (or_introl eq_refl)) as [c Rc]. destruct IH as [cs Rs]; [intros x Ix; exact (H x (or_intror Ix))|]. exists (c :: cs). constructor; assumption.
Qed.

(** ** CREATE TABLE *)
Lemma listed_is d l : listed_constraints d true l = filter (fun c => negb (con_ignore c)
    && match d with SQLite => negb (beqb (con_type c) PRIMARY_KEY) || negb (List.length (con_columns c) =? 1) | _ => negb (beqb (con_type c) FOREIGN_KEY) end) l.
Proof.
  unfold listed_constraints. destruct d; try reflexivity. apply filter_ext. intros c. rewrite negb_andb. reflexivity.
Qed.
Lemma qualify_plain d cur s n : plain_name d s -> plain_name d n -> plain_table d (qualify cur s n).
Proof. intros S N. unfold qualify. destruct (negb (is_empty s) && negb (beqb s cur)); split; try assumption. apply plain_none. Qed.
Lemma at_end_comma m : at_end (Sym "," :: m) = true.
Proof. reflexivity. Qed.
Lemma columns_split l1 l2 : columns_in (map inl l1 ++ map inr l2) = l1.
Proof. induction l1 as [|x l1 IH]; [induction l2 as [|x l2 IH]; [reflexivity|exact IH]|]. change (x :: columns_in (map inl l1 ++ map inr l2) = x :: l1). rewrite IH. reflexivity. Qed.
Lemma constraints_split l1 l2 : constraints_in (map inl l1 ++ map inr l2) = l2.
Proof. induction l1 as [|x l1 IH]; [|exact IH]. induction l2 as [|x l2 IH]; [reflexivity|]. change (x :: constraints_in (map inl [] ++ map inr l2) = x :: l2). rewrite IH. reflexivity. Qed.
Lemma says_create_table d cur coll t : d <> Other -> writable_table d cur coll t ->
  says d (write_create_table d cur coll t true) [CreateTable (path_of (qualify cur (tb_schema t) (tb_name t)))
    (map (column_meant d coll false no_reference) (table_columns t)) (map (constraint_meant d cur) (table_constraints d t))].
Proof.
  intros D (Hs & Ps & Pn & Ne & Hc & Hk). set (q := qualify cur (tb_schema t) (tb_name t)).
  assert (Ec : filter (fun c => negb (omitted c)) (tb_columns t) = table_columns t).
  { apply filter_ext. intros c. unfold omitted. rewrite negb_orb, negb_andb. unfold is_empty. destruct (col_generated c), (col_expr c); reflexivity. }
  assert (Ek : listed_constraints d true (tb_constraints t) = table_constraints d t) by (rewrite listed_is; reflexivity).
  destruct (exists_each (fun c ts m => Lex d (write_column d coll c false no_reference) ts /\ forall more, at_end more = true -> read_item d (ts ++ more) = Some (inl m, more))
    (column_meant d coll false no_reference) (table_columns t)) as [cts Fc].
  { intros c Ic. destruct (column_reads d coll false no_reference c D (Hc c Ic)) as (ts & L & R). exists (ntok d (col_name c) :: ts). split; [exact L|]. intros more M. destruct (R more M) as [Rb Rc]. unfold read_item. cbn [app]. rewrite Rb. unfold toks in *. rewrite Rc. reflexivity. }
  destruct (exists_each (fun c ts m => Lex d (write_constraint d cur c) ts /\ forall more, at_end more = true -> read_item d (ts ++ more) = Some (inr m, more))
    (constraint_meant d cur) (table_constraints d t)) as [kts Fk].
  { intros c Ic. destruct (constraint_reads d cur c (Hk c Ic)) as (ts & L & Rb & R). exists ts. split; [exact L|]. intros more M. unfold read_item. rewrite Rb, (R more (or_introl M)). reflexivity. }
  assert (Pc : Piece d (after (NL ++ B"    ") (NL ++ B"    ,") (map (fun c => write_column d coll c false no_reference) (table_columns t))) (commas cts)).
  { apply after_first; [intros E; apply Ne; exact (map_eq_nil _ _ E)|]. clear -Fc. induction Fc as [|c ts l tss [X _] F IH]; [constructor|constructor; [exact X|exact IH]]. }
  assert (Pk : Piece d (after (NL ++ NL ++ B"    ,") (NL ++ B"    ,") (map (write_constraint d cur) (table_constraints d t))) (later kts)).
  { apply after_rest. clear -Fk. induction Fk as [|c ts l tss [X _] F IH]; [constructor|constructor; [exact X|exact IH]]. }
  assert (Nc : cts <> []) by (intros ->; inversion Fc; congruence).
  assert (Eall : commas cts ++ later kts = commas (cts ++ kts)).
  { destruct cts as [|x cts]; [congruence|]. cbn [app]. rewrite !commas_later. unfold later. rewrite flat_map_app, app_assoc. reflexivity. }
  assert (Ft : Forall2 (fun ts (x : item) => forall m, at_end m = true -> read_item d (ts ++ m) = Some (x, m)) (cts ++ kts) (map inl (map (column_meant d coll false no_reference) (table_columns t)) ++ map inr (map (constraint_meant d cur) (table_constraints d t)))).
  { apply Forall2_app; [clear -Fc; induction Fc as [|c ts l tss [_ X] F IH]; [constructor|constructor; [exact X|exact IH]]|clear -Fk; induction Fk as [|c ts l tss [_ X] F IH]; [constructor|constructor; [exact X|exact IH]]]. }
  apply (says_simple d (B"CREATE") (Word (B"TABLE") :: qtoks d q ++ Sym "(" :: commas (cts ++ kts) ++ [Sym ")"; Sym ";"])); [|reflexivity|].
  - unfold write_create_table. unfold given. rewrite Hs. cbn [is_empty negb]. rewrite Ec, Ek, <- Eall. fold q.
    apply (closed_fixed d (B"CREATE TABLE ") _ [_; _] _ ltac:(fix_text)). apply (closed_lex d _ _ _ _ (lex_qname d q)); [ending|discriminate|].
    apply (closed_fixed d (B" (") _ [_] _ ltac:(fix_text)). rewrite <- app_assoc.
    apply (closed_lex d _ _ _ _ (proj1 Pc)); [apply ends_app; [exact (proj2 Pk)|ending]|intros Z; apply app_eq_nil in Z as [_ Z]; discriminate Z|].
    apply (closed_lex d _ _ _ _ (proj1 Pk)); [ending|discriminate|]. exact (fixed_closed d (NL ++ B");" ++ NL) [_; _] ltac:(fix_text)).
  - intros more. cbn [app]. repeat (rewrite <- !app_assoc; cbn [app]).
    match goal with |- read_simple _ (_ :: _ :: ?z) = _ => change (read_simple d (Word (B"CREATE") :: Word (B"TABLE") :: z)) with (let? (p, r) := path d z in
      let? (l, r) := parens (tlist (read_item d) (sym ",")) r in end_of r [CreateTable p (columns_in l) (constraints_in l)]) end.
    set (m := Sym "(" :: commas (cts ++ kts) ++ Sym ")" :: Sym ";" :: more).
    rewrite (read_path d q m (qualify_plain d cur _ _ Ps Pn) eq_refl). cbn [andthen]. unfold m.
    assert (Nn : cts ++ kts <> []) by (destruct cts; [congruence|discriminate]).
    pose proof (tlist_commas (read_item d) (fun m => at_end m = true) (cts ++ kts) _ (Sym ")" :: Sym ";" :: more) Nn Ft at_end_comma eq_refl eq_refl) as T.
    rewrite (read_parens (tlist (read_item d) (sym ",")) _ _ _ T). cbn [andthen]. rewrite end_read.
    rewrite columns_split, constraints_split. reflexivity.
Qed.

(** ** Other statements *)
Lemma says_copy d q q' l : plain_table d q -> plain_table d q' -> plain_names_ d l ->
  says d (B"INSERT INTO " ++ qtext d q' ++ NL ++ B"    (" ++ write_column_names d l ++ B")" ++ NL ++ B"SELECT" ++ NL
      ++ B"    " ++ write_column_names d l ++ NL ++ B"FROM" ++ NL ++ B"    " ++ qtext d q ++ NL ++ B";" ++ NL) [CopyRows (path_of q) (path_of q') l l].
Proof.
  intros P P' Pl. apply (says_simple d (B"INSERT") (Word (B"INTO") :: qtoks d q' ++ Sym "(" :: ntoks d l ++ Sym ")" :: Word (B"SELECT") :: ntoks d l ++ Word (B"FROM") :: qtoks d q ++ [Sym ";"])); [|reflexivity|].
  - apply (closed_fixed d (B"INSERT INTO ") _ [_; _] _ ltac:(fix_text)). apply (closed_lex d _ _ _ _ (lex_qname d q')); [ending|discriminate|].
    rewrite app_assoc. apply (closed_fixed d (NL ++ B"    (") _ [_] _ ltac:(fix_text)). apply (closed_lex d _ _ _ _ (lex_names d l)); [ending|discriminate|].
    rewrite !app_assoc. match goal with |- Closed _ ?s _ => replace s with ((B")" ++ NL ++ B"SELECT" ++ NL ++ B"    ") ++ write_column_names d l ++ (NL ++ B"FROM" ++ NL ++ B"    ") ++ qtext d q ++ NL ++ B";" ++ NL) by (repeat (rewrite <- !app_assoc; cbn [app]); reflexivity) end.
    apply (closed_fixed d (B")" ++ NL ++ B"SELECT" ++ NL ++ B"    ") _ [_; _] _ ltac:(fix_text)). apply (closed_lex d _ _ _ _ (lex_names d l)); [ending|discriminate|].
    apply (closed_fixed d (NL ++ B"FROM" ++ NL ++ B"    ") _ [_] _ ltac:(fix_text)). apply (closed_lex d _ _ _ _ (lex_qname d q)); [ending|discriminate|]. exact (fixed_closed d (NL ++ B";" ++ NL) [_] ltac:(fix_text)).
  - intros more. cbn [app]. repeat (rewrite <- !app_assoc; cbn [app]).
    match goal with |- read_simple _ (_ :: _ :: ?z) = _ => change (read_simple d (Word (B"INSERT") :: Word (B"INTO") :: z)) with (read_copy d z) end. unfold read_copy.
    match goal with |- context [path d (qtoks d q' ++ ?z)] => rewrite (read_path d q' z P' eq_refl) end. cbn [andthen]. rewrite (read_names_in d l _ Pl). cbn [andthen]. kw_step.
    match goal with |- context [names d (ntoks d l ++ ?z)] => rewrite (read_names d l z Pl eq_refl) end. cbn [andthen]. kw_step. rewrite (read_path d q (Sym ";" :: more) P eq_refl). reflexivity.
Qed.
Lemma says_create_index d cur x conc : d <> Other -> writable_index d x -> plain_table d (qualify cur (ix_schema x) (ix_table x)) ->
  says d (write_create_index d cur x conc) [CreateIndex (index_meant d (Some (qualify cur (ix_schema x) (ix_table x))) conc x)].
Proof.
  intros D W P. pose proof (index_lex d cur x conc false D W P) as L. pose proof (index_read d cur x conc false D W P) as R. cbv iota in R.
  apply (says_simple d (B"CREATE") (index_toks d cur x conc false ++ [Sym ";"])); [|reflexivity|].
  - unfold write_create_index, given. rewrite (wx_sql _ _ W). cbn [is_empty negb]. exact (closed_fixed d (B"CREATE ") _ [_] _ ltac:(fix_text) (closed_end d _ _ L)).
  - intros more. rewrite <- app_assoc. cbn [app]. specialize (R (Sym ";" :: more) eq_refl).
    match goal with |- read_simple _ (_ :: ?z) = _ => change (read_simple d (Word (B"CREATE") :: z)) with (read_create d z) end. unfold read_create.
    assert (Fst : exists w r, index_toks d cur x conc false ++ Sym ";" :: more = Word w :: r /\ In (to_lower w) [B"unique"; B"fulltext"; B"index"]).
    { unfold index_toks. destruct (ix_unique x); [eexists; eexists; split; [reflexivity|vm_compute; tauto]|]. destruct (special d x) eqn:Es; [|eexists; eexists; split; [reflexivity|vm_compute; tauto]].
      eexists. eexists. split; [reflexivity|]. right. left. destruct (special_facts d x W Es) as (_ & E & _). rewrite <- lower_of_upper, E. reflexivity. }
    destruct Fst as (w & r & E & I). unfold toks in *. rewrite E in *. rewrite !kw_not by (destruct I as [<-|[<-|[<-|[]]]]; reflexivity). rewrite R. reflexivity.
Qed.
Lemma says_pragma (on : bool) : says SQLite (B"PRAGMA legacy_alter_table = " ++ (if on then B"ON" else B"OFF") ++ B";" ++ NL) [LegacyAlterTable on].
Proof.
  apply (says_simple SQLite (B"PRAGMA") [Word (B"legacy_alter_table"); Sym "="; Word (if on then B"ON" else B"OFF"); Sym ";"]); [|reflexivity|].
  - destruct on; [exact (fixed_closed SQLite (B"PRAGMA legacy_alter_table = ON;" ++ NL) _ ltac:(fix_text))|exact (fixed_closed SQLite (B"PRAGMA legacy_alter_table = OFF;" ++ NL) _ ltac:(fix_text))].
  - intros more. destruct on; reflexivity.
Qed.
Lemma says_alter d q s a : plain_table d q -> acts d s a -> says d (B"ALTER TABLE " ++ qtext d q ++ B" " ++ s ++ B";" ++ NL) [AlterTable (path_of q) a].
Proof.
  intros P (w & ts & L & R). apply (says_simple d (B"ALTER") (Word (B"TABLE") :: qtoks d q ++ Word w :: ts ++ [Sym ";"])); [|reflexivity|].
  - apply (closed_fixed d (B"ALTER TABLE ") _ [_; _] _ ltac:(fix_text)). apply (closed_lex d _ _ _ _ (lex_qname d q)); [ending|discriminate|].
    exact (closed_fixed d (B" ") _ [] _ ltac:(fix_text) (closed_end d _ _ L)).
  - intros more. cbn [app]. repeat (rewrite <- !app_assoc; cbn [app]). specialize (R (Sym ";" :: more) eq_refl).
    match goal with |- read_simple _ (_ :: _ :: ?z) = _ => change (read_simple d (Word (B"ALTER") :: Word (B"TABLE") :: z)) with (let? (p, r) := path d z in let? (l, r) := read_actions d r in end_of r (map (AlterTable p) l)) end.
    rewrite (read_path d q (Word w :: ts ++ Sym ";" :: more) P eq_refl). cbn [andthen].
    assert (read_actions d (Word w :: ts ++ Sym ";" :: more) = Some ([a], Sym ";" :: more)) as ->; [|reflexivity].
    unfold read_actions. unfold toks in *. destruct d; try (rewrite R; reflexivity); unfold tlist; cbn [tlist_]; rewrite R; reflexivity.
Qed.
Lemma actions_alter d cur coll ref s q a : action_of d cur coll ref s = Some (q, a) -> part_action d cur coll ref s = Some (q, a).
Proof. destruct s; cbn [action_of]; try discriminate; intros H; exact H. Qed.
(** ** All statements *)
Theorem stmt_says d cur coll ref s : d <> Other -> writable d cur coll ref s -> (d = MySQL -> forall q n, s <> QDropIndex q n) ->
  exists st, meant d cur coll ref s = Some st /\ says d (write_stmt d cur coll ref s) [st].
Proof.
  intros D W M.
  assert (Alter : part_action d cur coll ref s <> None -> meant d cur coll ref s = option_map (fun '(t, a) => AlterTable (path_of t) a) (part_action d cur coll ref s) ->
    write_stmt d cur coll ref s = B"ALTER TABLE " ++ qtext d (table_of s) ++ B" " ++ write_part d cur coll ref s ++ B";" ++ NL -> exists st, meant d cur coll ref s = Some st /\ says d (write_stmt d cur coll ref s) [st]).
  { intros N E T. destruct (part_acts d cur coll ref s D W N) as (a & Ea & P & A). rewrite E, T, Ea. eexists. split; [reflexivity|]. exact (says_alter d _ _ a P A). }
  destruct s; try (apply Alter; [discriminate|reflexivity|reflexivity]); clear Alter; cbn [writable] in W; cbn [meant write_stmt].
  all: try (eexists; split; [reflexivity|]).
  - exact (says_drop_schema d n W).
  - destruct W as (Dd & P & S). destruct Dd as [<-|[<-|[<-|[]]]].
    + exact (says_create_schema Postgres n ltac:(left; reflexivity) P).
    + exact (says_create_schema MySQL n ltac:(right; left; reflexivity) P).
    + apply (says_create_schema_if n P). destruct (double squote n) eqn:E; [|reflexivity]. exfalso. exact (S eq_refl (proj1 (double_In _ _) E)).
  - exact (says_drop_table d t _ W).
  - destruct W as (-> & W). exact (says_create_table d cur coll def D W).
  - destruct W as (P & P' & Pl). exact (says_copy d _ _ _ P P' Pl).
  - destruct W as (P & -> & Wx). exact (says_create_index d cur x concurrently D Wx P).
  - destruct W as ((P1 & P2) & Pn & Es). destruct d.
    + rewrite (Es eq_refl). exact (says_drop_index SQLite ([], n) false ltac:(discriminate) (conj (plain_none _) Pn)).
    + exact (says_drop_index Postgres (fst t, n) true ltac:(discriminate) (conj P1 Pn)).
    + exfalso. exact (M eq_refl _ _ eq_refl).
    + exact (says_drop_index_on n t Pn (conj P1 P2)).
    + congruence.
  - destruct W as (-> & P & A). exact (says_alter Postgres t _ _ P (drop_default_part n A)).
  - cbn [action_of table_of write_part]. destruct W as (-> & P & A & K & F). destruct (add_identity_part n _ A K F) as (i & E & X). rewrite E. eexists. split; [reflexivity|]. exact (says_alter Postgres t _ _ P X).
  - subst d. exact (says_pragma on).
Qed.
(** The actions of an ALTER TABLE of MySQL. *)
Lemma says_alter_mysql q (parts : list bytes) acs : plain_table MySQL q -> parts <> [] -> Forall2 (acts MySQL) parts acs ->
  says MySQL (B"ALTER TABLE " ++ qtext MySQL q ++ after (NL ++ B"    ") (NL ++ B"    ,") parts ++ NL ++ B";" ++ NL) (map (AlterTable (path_of q)) acs).
Proof.
  intros P N H. assert (E : exists tss, Forall2 (Lex MySQL) parts tss /\ Forall2 (fun ts a => exists w ts', ts = Word w :: ts') tss acs /\ Forall2 (fun ts a => forall m, at_end m = true -> read_action MySQL (ts ++ m) = Some (a, m)) tss acs).
  { clear N. induction H as [|s a parts acs (w & ts & L & R) H IH]; [exists []; repeat split; constructor|]. destruct IH as (tss & F1 & F2 & F3). exists ((Word w :: ts) :: tss). split; [constructor; assumption|]. split; [constructor; [eexists; eexists; reflexivity|assumption]|]. constructor; assumption. }
  destruct E as (tss & F1 & F2 & F3).
  assert (Nt : tss <> []) by (intros ->; inversion F1; congruence).
  assert (Fw : exists w r, commas tss = Word w :: r).
  { destruct F2 as [|x y l l' (w & ts & ->) F2]; [exfalso; apply Nt; reflexivity|]. rewrite commas_later. eexists. eexists. reflexivity. }
  apply (says_simple MySQL (B"ALTER") (Word (B"TABLE") :: qtoks MySQL q ++ commas tss ++ [Sym ";"])); [|reflexivity|].
  - apply (closed_fixed MySQL (B"ALTER TABLE ") _ [_; _] _ ltac:(fix_text)). pose proof (after_first MySQL parts tss N F1) as [L E].
    apply (closed_lex MySQL _ _ _ _ (lex_qname MySQL q)); [apply ends_app; [exact E|ending]|intros X; apply app_eq_nil in X as [_ X]; discriminate X|].
    apply (closed_lex MySQL _ _ _ _ L); [ending|discriminate|]. exact (fixed_closed MySQL (NL ++ B";" ++ NL) [_] ltac:(fix_text)).
  - intros more. cbn [app]. repeat (rewrite <- !app_assoc; cbn [app]).
    match goal with |- read_simple _ (_ :: _ :: ?z) = _ => change (read_simple MySQL (Word (B"ALTER") :: Word (B"TABLE") :: z)) with (let? (p, r) := path MySQL z in let? (l, r) := read_actions MySQL r in end_of r (map (AlterTable p) l)) end.
    assert (Sm : sym "." (commas tss ++ Sym ";" :: more) = None) by (destruct Fw as (w & r & ->); reflexivity).
    rewrite (read_path MySQL q (commas tss ++ Sym ";" :: more) P Sm). cbn [andthen].
    assert (read_actions MySQL (commas tss ++ Sym ";" :: more) = Some (acs, Sym ";" :: more)) as ->; [|reflexivity].
    exact (tlist_commas (read_action MySQL) (fun m => at_end m = true) tss acs (Sym ";" :: more) Nt F3 at_end_comma eq_refl eq_refl).
Qed.

(** ** Scripts *)
(** A text and the statements in it. *)
Definition scripted (d : dialect) (s : bytes) (l : list statement) : Prop :=
  exists tss ls, Closed d s (concat tss) /\ Forall2 (fun ts st => ts <> [] /\ forall more, read_statement d (ts ++ more) = Some (st, more)) tss ls /\ l = concat ls.
Lemma scripted_nil d : scripted d [] [].
Proof. exists [], []. split; [apply closed_nil|]. split; [constructor|reflexivity]. Qed.
Lemma scripted_blank d : scripted d NL [].
Proof. exists [], []. split; [exact (fixed_closed d NL [] ltac:(fix_text))|]. split; [constructor|reflexivity]. Qed.
Lemma scripted_one d s l : says d s l -> scripted d s l.
Proof. intros (t & ts & C & R). exists [t :: ts], [l]. cbn [concat]. rewrite !app_nil_r. split; [exact C|]. split; [constructor; [split; [discriminate|exact R]|constructor]|reflexivity]. Qed.
Lemma scripted_app d s s' l l' : scripted d s l -> scripted d s' l' -> scripted d (s ++ s') (l ++ l').
Proof.
  intros (tss & ls & C & F & ->) (tss' & ls' & C' & F' & ->). exists (tss ++ tss'), (ls ++ ls'). rewrite !concat_app. split; [exact (closed_app d _ _ _ _ C C')|]. split; [apply Forall2_app; assumption|reflexivity].
Qed.
Lemma scripted_script d s l : scripted d s l -> script d s = Some l.
Proof.
  intros (tss & ls & C & F & ->). apply closed_lexed in C. apply lex_tokens in C. unfold script. rewrite C. cbn [andthen].
  assert (Ln : List.length tss <= List.length (concat tss)).
  { clear C. induction F as [|ts st tss ls [N _] F IH]; [cbn; lia|]. cbn [concat List.length]. rewrite app_length. destruct ts; [congruence|]. cbn [List.length]. lia. }
  revert Ln. generalize (List.length (concat tss)). clear C. induction F as [|ts st tss ls [N R] F IH]; intros n Ln; [destruct n; reflexivity|].
  cbn [concat List.length] in *. destruct n as [|n]; [lia|]. destruct ts as [|t ts]; [congruence|]. cbn [app read_all]. specialize (R (concat tss)). cbn [app] in R. unfold toks in *. rewrite R. cbn [andthen]. rewrite (IH n ltac:(lia)). reflexivity.
Qed.
Section Scripts.
Context (d : dialect) (cur coll : bytes) (ref : column -> reference).
Hypothesis Hd : d <> Other.
(** In MySQL indexes are not dropped outside of ALTER TABLE. *)
Definition standalone (s : stmt) : Prop := d = MySQL -> forall q n, s <> QDropIndex q n.
Lemma rest_scripted p l : (forall s, In s l -> writable d cur coll ref s /\ standalone s) ->
  exists sts, map (meant d cur coll ref) l = map Some sts /\ scripted d (write_rest d cur coll ref p l) sts.
Proof.
  revert p. induction l as [|s l IH]; intros p H; [exists []; split; [reflexivity|apply scripted_nil]|].
  destruct (H s (or_introl eq_refl)) as [W St]. destruct (stmt_says d cur coll ref s Hd W St) as (st & M & S). destruct (IH s) as (sts & Ms & Ss); [intros x Ix; exact (H x (or_intror Ix))|].
  exists (st :: sts). split; [cbn [map]; rewrite M, Ms; reflexivity|]. cbn [write_rest]. change (st :: sts) with ([] ++ [st] ++ sts). apply scripted_app; [destruct (glued p s); [apply scripted_nil|apply scripted_blank]|]. apply scripted_app; [exact (scripted_one d _ _ S)|exact Ss].
Qed.
Lemma stmts_scripted l : (forall s, In s l -> writable d cur coll ref s /\ standalone s) ->
  exists sts, map (meant d cur coll ref) l = map Some sts /\ scripted d (write_stmts d cur coll ref l) sts.
Proof.
  destruct l as [|s l]; intros H; [exists []; split; [reflexivity|apply scripted_nil]|]. destruct (H s (or_introl eq_refl)) as [W St]. destruct (stmt_says d cur coll ref s Hd W St) as (st & M & S).
  destruct (rest_scripted s l) as (sts & Ms & Ss); [intros x Ix; exact (H x (or_intror Ix))|]. exists (st :: sts). split; [cbn [map]; rewrite M, Ms; reflexivity|]. change (st :: sts) with ([st] ++ sts). exact (scripted_app d _ _ _ _ (scripted_one d _ _ S) Ss).
Qed.
End Scripts.
Theorem written d cur coll ref l : d <> Other -> (forall s, In s l -> writable d cur coll ref s /\ standalone d s) ->
  exists sts, map (meant d cur coll ref) l = map Some sts /\ script d (write_stmts d cur coll ref l) = Some sts.
Proof. intros D H. destruct (stmts_scripted d cur coll ref D l H) as (sts & M & S). exists sts. split; [exact M|exact (scripted_script d _ _ S)]. Qed.
(** The ALTER TABLE of MySQL: all parts of the same table. *)
Theorem written_mysql cur coll ref q l : l <> [] -> (forall s, In s l -> table_of s = q /\ writable MySQL cur coll ref s /\ part_action MySQL cur coll ref s <> None) ->
  exists sts sts', map (meant MySQL cur coll ref) l = map Some sts /\ script MySQL (write_alter_mysql MySQL cur coll ref l) = Some sts' /\ map plainly sts' = map plainly sts.
Proof.
  intros N H.
  assert (E : exists acs, Forall2 (acts MySQL) (map (write_part MySQL cur coll ref) l) acs /\ exists sts, map (meant MySQL cur coll ref) l = map Some sts /\ map plainly (map (AlterTable (path_of q)) acs) = map plainly sts).
  { clear N. induction l as [|s l IH]; [exists []; split; [constructor|]; exists []; split; reflexivity|]. destruct IH as (acs & F & sts & M & Pl); [intros x Ix; exact (H x (or_intror Ix))|].
    destruct (H s (or_introl eq_refl)) as (T & W & A). destruct (part_acts MySQL cur coll ref s ltac:(discriminate) W A) as (a & Ea & _ & X). exists (a :: acs). split; [constructor; assumption|].
    assert (exists st, meant MySQL cur coll ref s = Some st /\ plainly (AlterTable (path_of q) a) = plainly st) as (st & Ms & Ps).
    { rewrite T in Ea. destruct s; cbn [part_action action_of meant table_of] in *; try discriminate Ea; try (rewrite Ea; eexists; split; reflexivity).
      - injection Ea as <- <-. eexists. split; [reflexivity|]. unfold index_meant, plainly. cbn [xd_unique xd_kind xd_concurrently xd_name xd_using xd_elements xd_include xd_where option_map]. rewrite !andb_false_r. reflexivity.
      - injection Ea as <- <-. eexists. split; [reflexivity|]. reflexivity. }
    exists (st :: sts). cbn [map]. rewrite Ms, M, Ps, Pl. split; reflexivity. }
  destruct E as (acs & F & sts & M & Pl). exists sts, (map (AlterTable (path_of q)) acs). split; [exact M|]. split; [|exact Pl].
  apply scripted_script. apply scripted_one. unfold write_alter_mysql.
  assert (table_of (hd (QPragma true) l) = q) as -> by (destruct l as [|s l]; [congruence|exact (proj1 (H s (or_introl eq_refl)))]).
  apply (says_alter_mysql q); [|intros E; apply N; exact (map_eq_nil _ _ E)|exact F].
  destruct l as [|s l]; [congruence|]. destruct (H s (or_introl eq_refl)) as (<- & W & A). destruct (part_acts MySQL cur coll ref s ltac:(discriminate) W A) as (a & _ & P & _). exact P.
Qed.
