(** The texts of constraints are read as they are meant. *)
From Verif Require Import GoStr GoStrFacts TrimFacts ModelSq SpecSql SqFacts SpecInsert SpecTokens TokenFacts TokenReads SpecDdl ModelCatalog ModelDdl ModelDiff ModelDiffSql ModelDdlText SpecDdlText DdlTokens DdlColumns.
From Coq Require Import ZifyBool ZifyNat.

(** ** What may follow *)
Definition not_valid (more : toks) : Prop := exists r, more = Word (B"NOT") :: Word (B"VALID") :: r.
Definition after_constraint (more : toks) : Prop := at_end more = true \/ not_valid more.
Lemma at_end_kw more k : at_end more = true -> kw k more = None.
Proof. destruct more as [|[w|w|w|w|w|c] more]; cbn [at_end kw is_sym]; try reflexivity. discriminate. Qed.
Lemma after_kw more k : after_constraint more -> In k [B"ON"; B"MATCH"; B"WHERE"; B"DEFERRABLE"; B"INITIALLY"; B"USING"] -> kw k more = None.
Proof.
  intros [H|(r & ->)] I; [exact (at_end_kw more k H)|]. repeat (destruct I as [<-|I]; [reflexivity|]). destruct I.
Qed.
Definition calm (more : toks) : Prop := kw (B"ON") more = None /\ kw (B"MATCH") more = None /\ kw (B"WHERE") more = None.
Lemma after_calm d a b more : after_constraint more -> calm (defer_text d a b ++ more).
Proof.
  intros H. unfold defer_text. destruct (a && _); [repeat split; reflexivity|]. cbn [app]. repeat split; apply (after_kw more); try assumption; vm_compute; tauto.
Qed.
Lemma after_defer more : after_constraint more -> no_defer more.
Proof. intros H. split; apply (after_kw more); try assumption; vm_compute; tauto. Qed.

(** ** Constraints without their names *)
Definition names_text (d : dialect) (l : list bytes) : bytes := B" (" ++ write_column_names d l ++ B")".
Definition body_text (d : dialect) (cur : bytes) (c : constraint) : bytes :=
  if beqb (con_type c) CHECK then B"CHECK (" ++ con_check c ++ B")"
  else if beqb (con_type c) EXCLUDE then
    B"EXCLUDE" ++ opt (given (con_indextype c)) (B" USING " ++ con_indextype c)
    ++ B" (" ++ join (B", ") (write_exclusions (con_columns c) (con_operators c)) ++ B")"
    ++ opt (given (con_predicate c)) (B" WHERE (" ++ con_predicate c ++ B")")
  else con_type c ++ names_text d (con_columns c)
    ++ opt (beqb (con_type c) FOREIGN_KEY)
         (B" REFERENCES " ++ write_target d cur c ++ names_text d (con_refcolumns c) ++ write_rules (con_update c) (con_delete c)).
Definition has_name (d : dialect) (c : constraint) : bool := given (con_name c) && negb (beqb (con_type c) PRIMARY_KEY && is d MySQL).
Lemma constraint_text d cur c : writable_constraint d cur c ->
  write_constraint d cur c = opt (has_name d c) (B"CONSTRAINT " ++ quote_identifier d (con_name c) ++ B" ") ++ body_text d cur c
    ++ (if beqb (con_type c) CHECK then [] else write_deferrable d (con_deferrable c) (con_deferred c)).
Proof.
  intros W. unfold write_constraint, body_text, names_text, has_name. pose proof (wk_exclude _ _ _ W) as We.
  destruct (beqb (con_type c) PRIMARY_KEY && is d MySQL) eqn:M.
  - apply andb_true_iff in M as [M1 M2]. apply beqb_eq in M1. rewrite M1. assert (d = MySQL) as -> by (destruct d; try discriminate M2; reflexivity).
    unfold write_deferrable. cbn [is dialect_eqb orb]. rewrite !andb_false_r. change (beqb PRIMARY_KEY CHECK) with false. change (beqb PRIMARY_KEY EXCLUDE) with false. change (beqb PRIMARY_KEY FOREIGN_KEY) with false.
    cbn [negb opt app]. unfold opt. rewrite !app_nil_r. reflexivity.
  - cbn [negb]. rewrite andb_true_r. f_equal.
    destruct (wk_type _ _ _ W) as [E|[E|[E|[E|[E|[]]]]]]; rewrite <- E in *.
    + change (beqb (B"PRIMARY KEY") CHECK) with false. change (beqb (B"PRIMARY KEY") EXCLUDE) with false. change (beqb (B"PRIMARY KEY") FOREIGN_KEY) with false. unfold opt. cbn [negb andb]. rewrite <- ?app_assoc, ?app_nil_r. cbn [app]. rewrite ?app_nil_r, <- ?app_assoc. reflexivity.
    + change (beqb (B"UNIQUE") CHECK) with false. change (beqb (B"UNIQUE") EXCLUDE) with false. change (beqb (B"UNIQUE") FOREIGN_KEY) with false. unfold opt. cbn [negb andb]. rewrite <- ?app_assoc, ?app_nil_r. cbn [app]. rewrite ?app_nil_r, <- ?app_assoc. reflexivity.
    + change (beqb (B"CHECK") CHECK) with true. rewrite <- !app_assoc. rewrite app_nil_r. reflexivity.
    + change (beqb (B"FOREIGN KEY") CHECK) with false. change (beqb (B"FOREIGN KEY") EXCLUDE) with false. change (beqb (B"FOREIGN KEY") FOREIGN_KEY) with true. unfold opt. cbn [negb andb]. rewrite <- ?app_assoc. cbn [app]. rewrite <- ?app_assoc. reflexivity.
    + destruct (We eq_refl) as [-> _]. change (beqb (B"EXCLUDE") CHECK) with false. change (beqb (B"EXCLUDE") EXCLUDE) with true. change (beqb (B"EXCLUDE") FOREIGN_KEY) with false. unfold opt at 1 2 3. cbn [negb andb is dialect_eqb]. cbn [app]. rewrite <- ?app_assoc. cbn [app]. rewrite <- ?app_assoc. reflexivity.
Qed.
Lemma names_piece d l : Piece d (names_text d l) (Sym "(" :: ntoks d l ++ [Sym ")"]).
Proof.
  split; [|ending]. unfold names_text. apply (lex_fixed d (B" (") _ [_] _ ltac:(fix_text)). apply (lex_app d _ _ _ _ (lex_names d l)); [lex_now|ending].
Qed.
Definition body_reads (d : dialect) (cur : bytes) (c : constraint) : Prop :=
  exists ts, Lex d (body_text d cur c) ts /\ (forall more, begins_constraint d (ts ++ more) = true /\ kw (B"CONSTRAINT") (ts ++ more) = None)
    /\ forall more, calm more -> read_body d (ts ++ more) = Some (body_of d cur c, more).
Lemma primary_reads d cur c : writable_constraint d cur c -> con_type c = PRIMARY_KEY -> body_reads d cur c.
Proof.
  intros W E. unfold body_reads, body_text, body_of. pose proof (wk_columns _ _ _ W) as P. rewrite E in *. specialize (P ltac:(discriminate) ltac:(discriminate)).
  exists (Word (B"PRIMARY") :: Word (B"KEY") :: Sym "(" :: ntoks d (con_columns c) ++ [Sym ")"]). split; [|split].
  - change (Lex d (B"PRIMARY KEY" ++ names_text d (con_columns c) ++ []) ([Word (B"PRIMARY"); Word (B"KEY")] ++ Sym "(" :: ntoks d (con_columns c) ++ [Sym ")"])). rewrite app_nil_r.
    apply (piece_after d (B"PRIMARY KEY") _ _ _ ltac:(lex_now)). apply names_piece.
  - intros more. split; [destruct d|]; reflexivity.
  - intros more _. change (beqb PRIMARY_KEY PRIMARY_KEY) with true. cbv iota. cbn [app]. rewrite <- app_assoc. cbn [app].
    match goal with |- read_body d (_ :: _ :: ?z) = _ => change (read_body d (Word (B"PRIMARY") :: Word (B"KEY") :: z)) with (let? (l, r) := parens (names d) z in Some (BPrimary l, r)) end.
    rewrite (read_names_in d _ more P). reflexivity.
Qed.
Lemma unique_reads d cur c : writable_constraint d cur c -> con_type c = UNIQUE -> body_reads d cur c.
Proof.
  intros W E. unfold body_reads, body_text, body_of. pose proof (wk_columns _ _ _ W) as P. rewrite E in *. specialize (P ltac:(discriminate) ltac:(discriminate)).
  exists (Word (B"UNIQUE") :: Sym "(" :: ntoks d (con_columns c) ++ [Sym ")"]). split; [|split].
  - change (Lex d (B"UNIQUE" ++ names_text d (con_columns c) ++ []) ([Word (B"UNIQUE")] ++ Sym "(" :: ntoks d (con_columns c) ++ [Sym ")"])). rewrite app_nil_r.
    apply (piece_after d (B"UNIQUE") _ _ _ ltac:(lex_now)). apply names_piece.
  - intros more. split; [destruct d|]; reflexivity.
  - intros more _. change (beqb UNIQUE PRIMARY_KEY) with false. change (beqb UNIQUE UNIQUE) with true. cbv iota. cbn [app]. rewrite <- app_assoc. cbn [app].
    match goal with |- read_body d (_ :: ?z) = _ => change (read_body d (Word (B"UNIQUE") :: z)) with (let? (l, r) := parens (names d) z in Some (BUnique l, r)) end.
    rewrite (read_names_in d _ more P). reflexivity.
Qed.
Lemma check_reads d cur c : writable_constraint d cur c -> con_type c = CHECK -> body_reads d cur c.
Proof.
  intros W E. unfold body_reads, body_text, body_of. pose proof (wk_check _ _ _ W) as P. rewrite E in *. specialize (P eq_refl). destruct (fits_text _ _ _ P) as (L & N & F).
  exists (Word (B"CHECK") :: Sym "(" :: text d (con_check c) ++ [Sym ")"]). split; [|split].
  - apply (lex_fixed d (B"CHECK (") _ [_; _] _ ltac:(fix_text)). apply (lex_app d _ _ _ _ L); [lex_now|ending].
  - intros more. split; [destruct d|]; reflexivity.
  - intros more _. change (beqb CHECK PRIMARY_KEY) with false. change (beqb CHECK UNIQUE) with false. change (beqb CHECK CHECK) with true. cbv iota. cbn [app]. rewrite <- app_assoc. cbn [app].
    match goal with |- read_body d (_ :: ?z) = _ => change (read_body d (Word (B"CHECK") :: z)) with (let? (l, r) := parens expression z in Some (BCheck l, r)) end.
    rewrite (parens_whole _ more F N). reflexivity.
Qed.

(** ** Foreign keys *)
Definition target (d : dialect) (cur : bytes) (c : constraint) : qname :=
  (if beqb (con_refschema c) cur || is_empty (con_refschema c) then
     if is d MySQL && negb (beqb (con_schema c) (con_refschema c)) then cur else []
   else con_refschema c, con_reftable c).
Lemma target_text d cur c : (d = MySQL -> cur <> []) -> write_target d cur c = qtext d (target d cur c) /\ target_of d cur c = path_of (target d cur c).
Proof.
  intros M. unfold write_target, qtext, target, target_of, given. cbn [fst snd]. split.
  - f_equal. destruct (is_empty (con_refschema c)) eqn:Em.
    + cbn [negb andb]. rewrite orb_true_r. destruct (is d MySQL && negb (beqb (con_schema c) (con_refschema c))) eqn:My; [|reflexivity].
      apply andb_true_iff in My as [My _]. assert (d = MySQL) as D by (destruct d; try discriminate My; reflexivity). specialize (M D). destruct cur; [congruence|reflexivity].
    + cbn [negb andb]. rewrite orb_false_r. destruct (beqb_spec (con_refschema c) cur) as [<-|N]; cbn [negb].
      * destruct (is d MySQL && negb (beqb (con_schema c) (con_refschema c))) eqn:My; [|reflexivity]. rewrite Em. reflexivity.
      * rewrite Em. reflexivity.
  - assert ((match con_refschema c with [] => true | _ => false end) = is_empty (con_refschema c)) as -> by (destruct (con_refschema c); reflexivity).
    destruct (beqb (con_refschema c) cur || is_empty (con_refschema c)) eqn:Em.
    + destruct d; try reflexivity. cbn [is dialect_eqb andb]. destruct (beqb (con_schema c) (con_refschema c)); reflexivity.
    + unfold path_of. cbn [fst snd]. destruct (con_refschema c); [rewrite orb_true_r in Em; discriminate Em|reflexivity].
Qed.
Lemma plain_none d : plain_name d [].
Proof. split; [intros [H|[H|[H|[H|[H|[]]]]]]; discriminate H|]. intros (a & z & b & E). destruct a; discriminate E. Qed.
Lemma foreign_reads d cur c : writable_constraint d cur c -> con_type c = FOREIGN_KEY -> body_reads d cur c.
Proof.
  intros W E. unfold body_reads, body_text, body_of. pose proof (wk_columns _ _ _ W) as P. pose proof (wk_foreign _ _ _ W) as F. rewrite E in *. specialize (P ltac:(discriminate) ltac:(discriminate)).
  destruct (F eq_refl) as (Ps & Pt & Pc & Fu & Fv & Fm & My). destruct (target_text d cur c (fun D => proj1 (My D))) as [-> ->].
  assert (Pq : plain_table d (target d cur c)).
  { split; [|exact Pt]. unfold target. cbn [fst]. destruct (beqb (con_refschema c) cur || is_empty (con_refschema c)); [|exact Ps].
    destruct (is d MySQL && negb (beqb (con_schema c) (con_refschema c))) eqn:Em; [|apply plain_none]. apply andb_true_iff in Em as [Em _]. apply My. destruct d; try discriminate Em; reflexivity. }
  exists (Word (B"FOREIGN") :: Word (B"KEY") :: (Sym "(" :: ntoks d (con_columns c) ++ [Sym ")"]) ++ Word (B"REFERENCES") :: qtoks d (target d cur c) ++ (Sym "(" :: ntoks d (con_refcolumns c) ++ [Sym ")"])
    ++ rule_text (B"UPDATE") (con_update c) ++ rule_text (B"DELETE") (con_delete c)). split; [|split].
  - change (beqb FOREIGN_KEY CHECK) with false. change (beqb FOREIGN_KEY EXCLUDE) with false. change (beqb FOREIGN_KEY FOREIGN_KEY) with true. cbv iota. unfold opt.
    apply (piece_after d FOREIGN_KEY _ [_; _] _ ltac:(lex_now)). apply piece_app; [apply names_piece|].
    apply (piece_fixed d (B" REFERENCES ") _ [_] _ ltac:(fix_text) ltac:(discriminate) ltac:(ending)). apply (piece_after d _ _ _ _ (lex_qname d _)). apply piece_app; [apply names_piece|apply rules_piece; assumption].
  - intros more. split; [destruct d|]; reflexivity.
  - intros more (C1 & C2 & C3). change (beqb FOREIGN_KEY PRIMARY_KEY) with false. change (beqb FOREIGN_KEY UNIQUE) with false. change (beqb FOREIGN_KEY CHECK) with false. change (beqb FOREIGN_KEY FOREIGN_KEY) with true. cbv iota. cbn [app]. rewrite <- !app_assoc. cbn [app]. rewrite <- !app_assoc. cbn [app]. rewrite <- !app_assoc. cbn [app].
    match goal with |- read_body d (_ :: _ :: ?z) = _ => change (read_body d (Word (B"FOREIGN") :: Word (B"KEY") :: z)) with
      (let? (l, r) := parens (names d) z in
      let? r := kw (B"REFERENCES") r in
      let? (p, r) := path d r in
      let? (m, r) := parens (names d) r in
      let '(full, r) := has [B"MATCH"; B"FULL"] r in
      let? (u, r) := read_rules r in
      Some (BForeign l p m full u, r)) end.
    rewrite (read_names_in d _ _ P). cbn [andthen]. match goal with |- context [kw ?k (_ :: ?r)] => change (kw k (Word (B"REFERENCES") :: r)) with (Some r) end. cbn [andthen].
    rewrite (read_path d _ _ Pq) by reflexivity. cbn [andthen]. rewrite (read_names_in d _ _ Pc). cbn [andthen].
    rewrite <- ?app_assoc. assert (has [B"MATCH"; B"FULL"] (rule_text (B"UPDATE") (con_update c) ++ rule_text (B"DELETE") (con_delete c) ++ more) = (false, rule_text (B"UPDATE") (con_update c) ++ rule_text (B"DELETE") (con_delete c) ++ more)) as ->.
    { unfold has. assert (kws [B"MATCH"; B"FULL"] (rule_text (B"UPDATE") (con_update c) ++ rule_text (B"DELETE") (con_delete c) ++ more) = None) as ->; [|reflexivity].
      unfold rule_text. destruct (given (con_update c) && _); [reflexivity|]. destruct (given (con_delete c) && _); [reflexivity|]. cbn [app kws]. rewrite C2. reflexivity. }
    rewrite rules_read by assumption. cbn [andthen]. assert (beqb (con_match c) (B"MATCH FULL") = false) as ->; [|reflexivity].
    destruct (beqb_spec (con_match c) (B"MATCH FULL")); [contradiction|reflexivity].
Qed.

(** ** Exclusions *)
Fixpoint exclusion_toks (d : dialect) (cols ops : list bytes) : list toks :=
  match cols with
  | c :: cols' => (text d c ++ Word (B"WITH") :: text d (hd [] ops)) :: exclusion_toks d cols' (tl ops)
  | [] => []
  end.
Lemma exclusions_lex d cols : forall ops, (forall n, In n cols -> fits d [B"WITH"] n) -> (forall o, In o ops -> fits d [] o) -> List.length ops = List.length cols ->
  Forall2 (Lex d) (write_exclusions cols ops) (exclusion_toks d cols ops).
Proof.
  induction cols as [|c cols IH]; intros ops Fc Fo L; [constructor|]. destruct ops as [|o ops]; [discriminate L|]. cbn [write_exclusions exclusion_toks hd tl]. constructor.
  - destruct (fits_text _ _ _ (Fc c (or_introl eq_refl))) as (Lc & _ & _). destruct (fits_text _ _ _ (Fo o (or_introl eq_refl))) as (Lo & _ & _).
    apply (piece_after d _ _ _ _ Lc). exact (piece_fixed d (B" WITH ") _ [_] _ ltac:(fix_text) ltac:(discriminate) ltac:(ending) Lo).
  - apply IH; [intros n I; exact (Fc n (or_intror I))|intros n I; exact (Fo n (or_intror I))|cbn in L; lia].
Qed.
Definition item_ends (m : toks) : Prop := match m with t :: _ => is_sym ")" t || is_sym "," t = true | [] => False end.
Lemma item_stops m stop : item_ends m -> stops stop m.
Proof. intros H. apply stops_weaken. destruct m as [|t m]; [exact I|]. cbn [item_ends stops] in *. unfold ends_run. apply orb_true_iff. left. destruct (is_word [] t); [reflexivity|exact H]. Qed.
Lemma exclusions_read d cols : forall ops, (forall n, In n cols -> fits d [B"WITH"] n) -> (forall o, In o ops -> fits d [] o) -> List.length ops = List.length cols ->
  Forall2 (fun t x => forall m, item_ends m -> read_exclusion (t ++ m) = Some (x, m)) (exclusion_toks d cols ops) (exclusions d cols ops).
Proof.
  induction cols as [|c cols IH]; intros ops Fc Fo L; [constructor|]. destruct ops as [|o ops]; [discriminate L|]. cbn [exclusions exclusion_toks hd tl]. constructor.
  - intros m M. destruct (fits_text _ _ _ (Fc c (or_introl eq_refl))) as (_ & Nc & Wc). destruct (fits_text _ _ _ (Fo o (or_introl eq_refl))) as (_ & No & Wo).
    unfold read_exclusion. rewrite <- app_assoc. rewrite (some_run_whole [B"WITH"] (text d c)) by (try assumption; reflexivity). cbn [andthen app].
    match goal with |- context [kw ?k (_ :: ?r)] => change (kw k (Word (B"WITH") :: r)) with (Some r) end. cbn [andthen]. rewrite (some_run_whole [] (text d o)) by (try assumption; apply item_stops; exact M). reflexivity.
  - apply IH; [intros n I; exact (Fc n (or_intror I))|intros n I; exact (Fo n (or_intror I))|cbn in L; lia].
Qed.
Lemma exclude_reads d cur c : writable_constraint d cur c -> con_type c = EXCLUDE -> body_reads d cur c.
Proof.
  intros W E. unfold body_reads, body_text, body_of. pose proof (wk_exclude _ _ _ W) as F. rewrite E in *. destruct (F eq_refl) as (-> & Nc & Fi & Fc & Fo & L & Fw). clear F.
  set (us := if given (con_indextype c) then [Word (B"USING"); Word (con_indextype c)] else [] : toks).
  set (wh := if given (con_predicate c) then Word (B"WHERE") :: Sym "(" :: text Postgres (con_predicate c) ++ [Sym ")"] else [] : toks).
  set (es := exclusion_toks Postgres (con_columns c) (con_operators c)).
  exists (Word (B"EXCLUDE") :: us ++ Sym "(" :: commas es ++ Sym ")" :: wh). split; [|split].
  - change (beqb EXCLUDE CHECK) with false. change (beqb EXCLUDE EXCLUDE) with true. cbv iota.
    apply (piece_after Postgres (B"EXCLUDE") _ [_] _ ltac:(lex_now)). apply piece_app.
    + unfold us. apply piece_opt. intros G. apply given_some in G. apply (piece_fixed Postgres (B" USING ") _ [_] [_] ltac:(fix_text) ltac:(discriminate) ltac:(ending)). apply lex_tokens. exact (Fi G).
    + apply (piece_fixed Postgres (B" (") _ [_] _ ltac:(fix_text) ltac:(discriminate) ltac:(ending)). apply (piece_after Postgres _ _ _ _ (lex_join Postgres _ _ (exclusions_lex Postgres _ _ Fc Fo L))).
      apply (piece_fixed Postgres (B")") _ [_] _ ltac:(fix_text) ltac:(discriminate) ltac:(ending)). match goal with |- Lex ?a ?b ?e => enough (Pw : Piece a b e) by exact (proj1 Pw) end. unfold wh. apply piece_opt. intros G. apply given_some in G. destruct (fits_text _ _ _ (Fw G)) as (Lw & _ & _).
      apply (piece_fixed Postgres (B" WHERE (") _ [_; _] _ ltac:(fix_text) ltac:(discriminate) ltac:(ending)). apply (lex_app Postgres _ _ _ _ Lw); [lex_now|ending].
  - intros more. split; [|reflexivity]. unfold us. destruct (given (con_indextype c)); reflexivity.
  - intros more (C1 & C2 & C3). change (beqb EXCLUDE PRIMARY_KEY) with false. change (beqb EXCLUDE UNIQUE) with false. change (beqb EXCLUDE CHECK) with false. change (beqb EXCLUDE FOREIGN_KEY) with false. cbv iota. cbn [app]. rewrite <- !app_assoc. cbn [app]. rewrite <- !app_assoc. cbn [app].
    match goal with |- read_body _ (_ :: ?z) = _ => change (read_body Postgres (Word (B"EXCLUDE") :: z)) with
      (let '(u, r) := maybe read_using z in
          let? (l, r) := parens (tlist read_exclusion (sym ",")) r in
          let '(w, r) := maybe read_where r in
          Some (BExclude u l w, r)) end.
    assert (U : forall r, maybe read_using (us ++ Sym "(" :: r) = (option_map to_upper (if_given (con_indextype c)), Sym "(" :: r)).
    { intros r. unfold us, if_given. destruct (con_indextype c) as [|x ty]; [reflexivity|]. cbn [given is_empty negb app]. unfold maybe, read_using. change (beqb (to_upper (B"USING")) (B"USING")) with true. reflexivity. }
    rewrite U. rewrite (read_parens _ (commas es) (exclusions Postgres (con_columns c) (con_operators c))).
    + cbn [andthen]. assert (maybe read_where (wh ++ more) = (option_map (text Postgres) (if_given (con_predicate c)), more)) as ->; [|reflexivity].
      unfold wh, if_given, maybe, read_where. destruct (con_predicate c) as [|x p].
      * cbn [given is_empty negb app option_map]. rewrite C3. reflexivity.
      * destruct (fits_text _ _ _ (Fw ltac:(discriminate))) as (_ & Nw & Ww). cbn [given is_empty negb app option_map]. rewrite <- app_assoc. cbn [app].
        match goal with |- context [kw ?k (_ :: ?r)] => change (kw k (Word (B"WHERE") :: r)) with (Some r) end. cbn [andthen]. rewrite (parens_whole _ more Ww Nw). reflexivity.
    + apply (tlist_commas read_exclusion item_ends).
      * unfold es. destruct (con_columns c); [congruence|discriminate].
      * exact (exclusions_read Postgres _ _ Fc Fo L).
      * intros m. reflexivity.
      * reflexivity.
      * reflexivity.
Qed.

(** ** Whole constraints *)
Lemma constraint_reads d cur c : writable_constraint d cur c ->
  exists ts, Lex d (write_constraint d cur c) ts /\ (forall more, begins_constraint d (ts ++ more) = true)
    /\ forall more, after_constraint more -> read_constraint d (ts ++ more) = Some (constraint_meant d cur c, more).
Proof.
  intros W. assert (Br : body_reads d cur c).
  { destruct (wk_type _ _ _ W) as [E|[E|[E|[E|[E|[]]]]]]; symmetry in E.
    - exact (primary_reads d cur c W E). - exact (unique_reads d cur c W E). - exact (check_reads d cur c W E). - exact (foreign_reads d cur c W E). - exact (exclude_reads d cur c W E). }
  destruct Br as (tb & Lb & Hb & Rb).
  set (df := if beqb (con_type c) CHECK then [] else defer_text d (con_deferrable c) (con_deferred c) : toks).
  assert (Pd : Piece d (if beqb (con_type c) CHECK then [] else write_deferrable d (con_deferrable c) (con_deferred c)) df).
  { unfold df. destruct (beqb (con_type c) CHECK); [apply piece_nil|apply defer_piece]. }
  assert (Rd : forall more, after_constraint more -> (let? (b, r) := read_body d (tb ++ df ++ more) in let? (f, r) := read_deferrable r in Some (b, f, r))
    = Some (body_of d cur c, kd_defer (constraint_meant d cur c), more)).
  { intros more M. cbn [constraint_meant kd_defer]. rewrite Rb; cbn [andthen].
    - unfold df. destruct (beqb (con_type c) CHECK); [|rewrite defer_read by (apply after_defer; exact M); reflexivity].
      pose proof (defer_read d false false more (after_defer more M)) as X. cbn [defer_text andb app] in *. unfold defer_text in X. cbn [andb app] in X. rewrite X. cbn [andthen]. unfold defer_of. rewrite andb_false_r. reflexivity.
    - unfold df. destruct (beqb (con_type c) CHECK); [exact (after_calm d false false more M)|apply after_calm; exact M]. }
  rewrite (constraint_text d cur c W). unfold has_name.
  destruct (given (con_name c) && negb (beqb (con_type c) PRIMARY_KEY && is d MySQL)) eqn:Hn.
  - exists (Word (B"CONSTRAINT") :: ntok d (con_name c) :: tb ++ df). split; [|split].
    + unfold opt. rewrite <- !app_assoc. apply (lex_fixed d (B"CONSTRAINT ") _ [_] _ ltac:(fix_text)). apply (lex_app d _ _ [_] _ (lex_name d _)); [|ending].
      apply (lex_one_space d). exact (piece_after d _ _ _ _ Lb Pd).
    + intros more. destruct d; reflexivity.
    + intros more M. specialize (Rd more M). cbn [app]. rewrite <- app_assoc. unfold read_constraint.
      match goal with |- context [kw ?k (_ :: ?r)] => change (kw k (Word (B"CONSTRAINT") :: r)) with (Some r) end. cbv beta iota. rewrite (read_name d _ _ (wk_name _ _ _ W)). cbn [andthen].
      destruct (read_body d (tb ++ df ++ more)) as [[b r]|]; [|discriminate Rd]. cbn [andthen] in *. destruct (read_deferrable r) as [[f r']|]; [|discriminate Rd]. cbn [andthen] in *. injection Rd as -> Ef ->. rewrite Ef.
      apply andb_true_iff in Hn as [Hn1 Hn2]. apply negb_true_iff in Hn2. unfold constraint_meant. cbn [kd_defer].
      assert ((match d with MySQL => if beqb (con_type c) PRIMARY_KEY then None else if_given (con_name c) | _ => if_given (con_name c) end) = Some (con_name c)) as ->; [|reflexivity].
      unfold if_given. destruct (con_name c); [discriminate Hn1|]. destruct d; try reflexivity. cbn [is dialect_eqb] in Hn2. rewrite andb_true_r in Hn2. rewrite Hn2. reflexivity.
  - exists (tb ++ df). split; [|split].
    + unfold opt. cbn [app]. exact (piece_after d _ _ _ _ Lb Pd).
    + intros more. rewrite <- app_assoc. apply Hb.
    + intros more M. specialize (Rd more M). rewrite <- app_assoc. unfold read_constraint. rewrite (proj2 (Hb (df ++ more))).
      destruct (read_body d (tb ++ df ++ more)) as [[b r]|]; [|discriminate Rd]. cbn [andthen] in *. destruct (read_deferrable r) as [[f r']|]; [|discriminate Rd]. cbn [andthen] in *. injection Rd as -> Ef ->. rewrite Ef.
      unfold constraint_meant. cbn [kd_defer].
      assert ((match d with MySQL => if beqb (con_type c) PRIMARY_KEY then None else if_given (con_name c) | _ => if_given (con_name c) end) = None) as ->; [|reflexivity].
      apply andb_false_iff in Hn as [Hn|Hn].
      * destruct (con_name c); [|discriminate Hn]. destruct d; try reflexivity. destruct (beqb (con_type c) PRIMARY_KEY); reflexivity.
      * apply negb_false_iff, andb_true_iff in Hn as [Hn1 Hn2]. destruct d; try discriminate Hn2. rewrite Hn1. reflexivity.
Qed.
