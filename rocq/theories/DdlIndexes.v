(** The texts of indexes are read as they are meant. *)
From Verif Require Import GoStr GoStrFacts TrimFacts ModelSq SpecSql SqFacts SpecInsert SpecTokens TokenFacts TokenReads SpecDdl ModelCatalog ModelDdl ModelDiff ModelDiffSql ModelDdlText SpecDdlText DdlTokens DdlColumns DdlConstraints.
From Coq Require Import ZifyBool ZifyNat.

(** ** Words in any case *)
Lemma fold_upper a k : to_upper k = k -> equal_fold a k = beqb (to_upper a) k.
Proof.
  intros K. unfold equal_fold. destruct (beqb_spec (to_lower a) (to_lower k)) as [E|N].
  - rewrite (lower_upper _ _ E), K. symmetry. apply beqb_refl.
  - destruct (beqb_spec (to_upper a) k) as [E|]; [|reflexivity]. exfalso. apply N. rewrite <- E, lower_of_upper. reflexivity.
Qed.
Lemma word_upper d s : ident_start (hd " "%char (to_upper s)) = true -> forallb ident_continue (to_upper s) = true -> Lex d s [Word s].
Proof.
  intros H A. destruct s as [|c s]; [discriminate H|].
  assert (G : forall s, forallb ident_continue (to_upper s) = forallb ident_continue s).
  { clear. intros s. induction s as [|c s IH]; [reflexivity|]. cbn [to_upper map forallb] in *. destruct (upper_char c) as (_ & _ & -> & _). unfold to_upper in IH. rewrite IH. reflexivity. }
  rewrite G in A. cbn [to_upper map hd] in H. destruct (upper_char c) as (_ & E & _). rewrite E in H. pose proof (word_lexed d (c :: s) [] A H I) as L. rewrite app_nil_r in L. exact L.
Qed.

(** ** Columns *)
Definition part_toks (d : dialect) (c : bytes) (b : bool) : toks :=
  (if is_expression c then Sym "(" :: inner (text d c) ++ [Sym ")"] else [ntok d c]) ++ (if b then [Word (B"DESC")] else []).
Fixpoint parts_toks (d : dialect) (cols : list bytes) (desc : list bool) : list toks :=
  match cols with c :: cols' => part_toks d c (hd false desc) :: parts_toks d cols' (tl desc) | [] => [] end.
Definition fits_part (d : dialect) (n : bytes) : Prop := if is_expression n then bracketed d n else plain_name d n.
Lemma expression_some n : is_expression n = true -> n <> [].
Proof. intros H ->. discriminate H. Qed.
Lemma parts_lex d cols : (forall n, In n cols -> fits_part d n) -> forall desc, Forall2 (Lex d) (write_index_columns d cols desc) (parts_toks d cols desc).
Proof.
  induction cols as [|c cols IH]; intros F desc; [constructor|]. cbn [write_index_columns parts_toks]. constructor; [|apply IH; intros n I; exact (F n (or_intror I))].
  unfold part_toks. rewrite wrapped_is. pose proof (F c (or_introl eq_refl)) as Fc. unfold fits_part in Fc.
  assert (Pd : Piece d (opt (match desc with b :: _ => b | [] => false end) (B" DESC")) (if hd false desc then [Word (B"DESC")] else [])).
  { destruct desc as [|b desc]; cbn [hd]; [apply piece_nil|]. apply piece_opt. intros _. piece_now. }
  refine (piece_after d _ _ _ _ _ Pd). destruct (is_expression c) eqn:E; [|apply lex_name].
  destruct (bracketed_lex d c Fc (expression_some c E)) as (L & _ & _). unfold wrap_brackets in L. rewrite wrapped_is, E in L.
  destruct c; [discriminate E|exact L].
Qed.
Lemma parts_read d cols : (forall n, In n cols -> fits_part d n) -> forall desc (classes : list bytes), (d = Postgres -> forall n : bytes, In n classes -> n = []) ->
  Forall2 (fun t x => forall m, item_ends m -> read_part d (t ++ m) = Some (x, m)) (parts_toks d cols desc) (parts_of d cols desc classes).
Proof.
  induction cols as [|c cols IH]; intros F desc classes Cl; [constructor|]. cbn [parts_toks parts_of]. constructor.
  - intros m M. unfold part_toks. pose proof (F c (or_introl eq_refl)) as Fc. unfold fits_part in Fc.
    assert (R : forall e (t more : toks), (match sym "(" (t ++ more) with Some _ => let? (e, r) := parens expression (t ++ more) in Some (EExpr e, r) | None => let? (n, r) := name d (t ++ more) in Some (EName n, r) end) = Some (e, more) ->
      more = (if hd false desc then [Word (B"DESC")] else []) ++ m -> read_part d (t ++ more) = Some (Part e (match d with Postgres => if_given (hd [] classes) | _ => None end) (hd false desc), m)).
    { intros e t more H Em. unfold read_part. rewrite H. cbn [andthen].
      match goal with |- (let '(o, r) := ?z in _) = _ => assert (z = (None, more)) as -> end.
      { destruct d; try reflexivity. unfold maybe. assert (name Postgres more = None) as ->; [|reflexivity]. rewrite Em. destruct (hd false desc); [reflexivity|]. cbn [app]. destruct m as [|[w|w|w|w|w|z] m]; cbn in M; try discriminate M; try contradiction; reflexivity. }
      assert ((match d with Postgres => if_given (hd [] classes) | _ => None end) = None) as ->.
      { destruct d; try reflexivity. destruct classes as [|n l]; [reflexivity|]. cbn [hd]. rewrite (Cl eq_refl n (or_introl eq_refl)). reflexivity. }
      subst more. destruct (hd false desc).
      - reflexivity.
      - cbn [app]. unfold has. assert (kws [B"DESC"] m = None) as ->; [|reflexivity]. destruct m as [|[w|w|w|w|w|z] m]; cbn in M; try discriminate M; reflexivity. }
    rewrite <- app_assoc. destruct (is_expression c) eqn:E.
    + destruct (bracketed_lex d c Fc (expression_some c E)) as (_ & Wi & Ni). refine (R (EExpr _) (Sym "(" :: inner (text d c) ++ [Sym ")"]) _ _ eq_refl).
      cbn [app]. rewrite <- app_assoc. cbn [app]. cbn [sym]. change (ceqb "(" "(") with true. cbv iota. rewrite (parens_whole _ _ Wi Ni). reflexivity.
    + refine (R (EName _) [ntok d c] _ _ eq_refl). cbn [app].
      assert (forall r, sym "(" (ntok d c :: r) = None) as -> by (intros r; unfold ntok; destruct (needs_quoting d c); reflexivity). rewrite (read_name d c _ Fc). reflexivity.
  - apply IH; [intros n I; exact (F n (or_intror I))|]. intros D n I. apply (Cl D). destruct classes; [contradiction|]. right. exact I.
Qed.

(** ** Kinds *)
Definition special (d : dialect) (x : index) : bool := is d MySQL && beqb (to_upper (ix_type x)) (B"FULLTEXT").
Definition method (d : dialect) (x : index) : bool := given (ix_type x) && is d Postgres && negb (beqb (to_upper (ix_type x)) (B"BTREE")).
Lemma upper_none s : to_upper s = [] -> s = [].
Proof. destruct s; [reflexivity|discriminate]. Qed.
Lemma special_is d x : writable_index d x -> is d MySQL && (equal_fold (ix_type x) (B"FULLTEXT") || equal_fold (ix_name x) (B"SPATIAL")) = special d x.
Proof.
  intros W. unfold special. rewrite !fold_upper by reflexivity. destruct d; try reflexivity. destruct (wx_type _ _ W) as [T _].
  destruct (beqb_spec (to_upper (ix_name x)) (B"SPATIAL")); [contradiction|]. rewrite orb_false_r. reflexivity.
Qed.
Lemma mysql_plain d x : writable_index d x -> given (ix_type x) && is d MySQL && negb (equal_fold (ix_type x) (B"BTREE")) && negb (special d x) = false.
Proof.
  intros W. unfold special. rewrite fold_upper by reflexivity. destruct d; cbn [is dialect_eqb]; rewrite ?andb_false_r; try reflexivity.
  destruct (wx_type _ _ W) as [_ [[T|[T|[]]]|[T _]]].
  - symmetry in T. rewrite (upper_none _ T). reflexivity.
  - rewrite <- T. cbn [negb]. rewrite andb_true_r, andb_false_r. reflexivity.
  - rewrite T. rewrite andb_false_r. reflexivity.
Qed.
Lemma special_facts d x : writable_index d x -> special d x = true -> ix_unique x = false /\ to_upper (ix_type x) = B"FULLTEXT" /\ d = MySQL.
Proof.
  unfold special. intros W E. apply andb_true_iff in E as [E1 E]. apply beqb_eq in E. pose proof (wx_type _ _ W) as T. destruct d; try discriminate E1. destruct T as [_ [[T|[T|[]]]|[_ T]]]; [rewrite E in T; discriminate T|rewrite E in T; discriminate T|]. auto.
Qed.
Lemma kind_is d x : writable_index d x -> kind_of d x = if special d x then Some (B"FULLTEXT") else None.
Proof.
  intros W. unfold kind_of, special. pose proof (wx_type _ _ W) as T. revert T. generalize (to_upper (ix_type x)) as ty. intros ty T. destruct d; try reflexivity.
  - destruct T as [_ [[<-|[<-|[]]]|[-> _]]]; reflexivity.
  - destruct T as [<-|[<-|[]]]; reflexivity.
Qed.
Lemma method_is d x : writable_index d x -> method_of d x = if method d x then Some (to_upper (ix_type x)) else None.
Proof.
  intros W. unfold method_of, method. pose proof (wx_type _ _ W) as T. destruct d; cbn [is dialect_eqb]; rewrite ?andb_false_r; try reflexivity.
  - rewrite andb_true_r. destruct (ix_type x) as [|c0 s0]; [reflexivity|]. cbn [given is_empty negb andb bmem existsb]. rewrite orb_false_r.
    change (beqb (to_upper (c0 :: s0)) []) with false. cbn [orb]. destruct (beqb (to_upper (c0 :: s0)) (B"BTREE")); reflexivity.
  - cbn [andb]. revert T. generalize (to_upper (ix_type x)) as ty. intros ty [_ [[<-|[<-|[]]]|[-> _]]]; reflexivity.
Qed.
Lemma special_lex d x : special d x = true -> Lex d (ix_type x) [Word (ix_type x)].
Proof.
  unfold special. intros E. apply andb_true_iff in E as [_ E]. apply beqb_eq in E. apply word_upper; rewrite E; reflexivity.
Qed.

(** ** Whole indexes *)
Section Index.
Context (d : dialect) (cur : bytes) (x : index) (conc inline : bool).
Hypothesis Hd : d <> Other.
Hypothesis Hw : writable_index d x.
Let q := qualify cur (ix_schema x) (ix_table x).
Hypothesis Hq : plain_table d q.

Definition index_toks : toks :=
  (if ix_unique x then [Word (B"UNIQUE")] else if special d x then [Word (ix_type x)] else [])
  ++ Word (B"INDEX") :: (if conc && is d Postgres then [Word (B"CONCURRENTLY")] else [])
  ++ ntok d (ix_name x) :: (if inline then [] else Word (B"ON") :: qtoks d q)
  ++ (if method d x then [Word (B"USING"); Word (ix_type x)] else [])
  ++ Sym "(" :: commas (parts_toks d (ix_columns x) (ix_descending x))
  ++ Sym ")" :: (if negb (none (ix_include x)) && (is d Postgres || is d SQLServer) then Word (B"INCLUDE") :: Sym "(" :: ntoks d (ix_include x) ++ [Sym ")"] else [])
  ++ (if given (ix_predicate x) && (is d SQLite || is d Postgres || is d SQLServer) then Word (B"WHERE") :: text d (ix_predicate x) else []).
Lemma index_lex : Lex d (write_index d cur x conc inline) index_toks.
Proof.
  unfold write_index, index_toks. cbv zeta. rewrite (special_is _ _ Hw), (mysql_plain _ _ Hw). rewrite fold_upper by reflexivity. fold (method d x). cbn [opt app].
  assert (L : Lex d (B"INDEX " ++ opt (conc && is d Postgres) (B"CONCURRENTLY ") ++ quote_identifier d (ix_name x) ++ opt (negb inline) (B" ON " ++ qtext d q)
    ++ opt (method d x) (B" USING " ++ ix_type x) ++ B" (" ++ join (B", ") (write_index_columns d (ix_columns x) (ix_descending x)) ++ B")"
    ++ opt (negb (none (ix_include x)) && (is d Postgres || is d SQLServer)) (B" INCLUDE (" ++ write_column_names d (ix_include x) ++ B")")
    ++ opt (given (ix_predicate x) && (is d SQLite || is d Postgres || is d SQLServer)) (B" WHERE " ++ ix_predicate x))
    (Word (B"INDEX") :: (if conc && is d Postgres then [Word (B"CONCURRENTLY")] else []) ++ ntok d (ix_name x) :: (if inline then [] else Word (B"ON") :: qtoks d q)
  ++ (if method d x then [Word (B"USING"); Word (ix_type x)] else [])
  ++ Sym "(" :: commas (parts_toks d (ix_columns x) (ix_descending x))
  ++ Sym ")" :: (if negb (none (ix_include x)) && (is d Postgres || is d SQLServer) then Word (B"INCLUDE") :: Sym "(" :: ntoks d (ix_include x) ++ [Sym ")"] else [])
  ++ (if given (ix_predicate x) && (is d SQLite || is d Postgres || is d SQLServer) then Word (B"WHERE") :: text d (ix_predicate x) else []))).
  { apply (lex_fixed d (B"INDEX ") _ [_] _ ltac:(fix_text)).
    match goal with |- Lex d (_ ++ ?b) (_ ++ ?ts) => assert (L : Lex d b ts) end.
    - apply (piece_after d _ _ [_] _ (lex_name d _)). apply piece_app.
      + destruct inline; [apply piece_nil|]. cbn [negb opt]. exact (piece_fixed d (B" ON ") _ [_] _ ltac:(fix_text) ltac:(discriminate) ltac:(ending) (lex_qname d q)).
      + apply piece_app.
        * apply piece_opt. intros M. apply (piece_fixed d (B" USING ") _ [_] [_] ltac:(fix_text) ltac:(discriminate) ltac:(ending)). unfold method in M.
          apply andb_true_iff in M as [M _]. apply andb_true_iff in M as [M1 M2]. apply given_some in M1. pose proof (wx_type _ _ Hw) as T. destruct d; try discriminate M2. apply lex_tokens. exact (T M1).
        * apply (piece_fixed d (B" (") _ [_] _ ltac:(fix_text) ltac:(discriminate) ltac:(ending)).
          apply (piece_after d _ _ _ _ (lex_join d _ _ (parts_lex d _ (wx_each _ _ Hw) _))). apply (piece_fixed d (B")") _ [_] _ ltac:(fix_text) ltac:(discriminate) ltac:(ending)).
          match goal with |- Lex ?a ?b ?e => enough (Pw : Piece a b e) by exact (proj1 Pw) end. apply piece_app.
          -- apply piece_opt. intros _. apply (piece_fixed d (B" INCLUDE (") _ [_; _] _ ltac:(fix_text) ltac:(discriminate) ltac:(ending)). apply (lex_app d _ _ _ _ (lex_names d _)); [lex_now|ending].
          -- apply piece_opt. intros G. apply andb_true_iff in G as [G _]. apply given_some in G. destruct (fits_text _ _ _ (wx_where _ _ Hw G)) as (Lw & _ & _).
             exact (piece_fixed d (B" WHERE ") _ [_] _ ltac:(fix_text) ltac:(discriminate) ltac:(ending) Lw).
    - destruct (conc && is d Postgres); [|exact L]. exact (lex_fixed d (B"CONCURRENTLY ") _ [_] _ ltac:(fix_text) L). }
  destruct (ix_unique x); [exact (lex_fixed d (B"UNIQUE ") _ [_] _ ltac:(fix_text) L)|]. destruct (special d x) eqn:Sp; [|exact L]. cbn [opt]. rewrite <- app_assoc.
  apply (lex_app d _ _ [_] _ (special_lex d x Sp)); [|ending]. apply lex_one_space. exact L.
Qed.
Lemma index_read more : at_end more = true -> read_index d inline (index_toks ++ more) = Some (index_meant d (if inline then None else Some q) conc x, more).
Proof.
  intros M. unfold read_index, index_toks. rewrite <- app_assoc. cbn [app]. match goal with |- context [has [B"UNIQUE"] (_ ++ Word (B"INDEX") :: ?z)] => set (r0 := z) end.
  set (h := if ix_unique x then [] else if special d x then [Word (ix_type x)] else [] : toks).
  pose proof (special_facts d x Hw) as Sk.
  assert (has [B"UNIQUE"] ((if ix_unique x then [Word (B"UNIQUE")] else if special d x then [Word (ix_type x)] else []) ++ Word (B"INDEX") :: r0) = (ix_unique x, h ++ Word (B"INDEX") :: r0)) as ->.
  { unfold h. destruct (ix_unique x); [reflexivity|]. destruct (special d x); [|reflexivity]. destruct (Sk eq_refl) as (_ & E & _). cbn [app]. unfold has. rewrite kws_first; [reflexivity|]. rewrite <- lower_of_upper, E. reflexivity. }
  assert (maybe (read_kind d) (h ++ Word (B"INDEX") :: r0) = (kind_of d x, Word (B"INDEX") :: r0)) as ->.
  { rewrite (kind_is d x Hw). unfold h. destruct (ix_unique x) eqn:U.
    - destruct (special d x); [destruct (Sk eq_refl) as [X _]; discriminate X|]. clear. destruct d; reflexivity.
    - destruct (special d x); [|clear; destruct d; reflexivity]. destruct (Sk eq_refl) as (_ & E & D). clear - E D. subst d. unfold maybe, read_kind. cbn [app]. rewrite E. reflexivity. }
  match goal with |- context [kw ?k (_ :: ?z)] => change (kw k (Word (B"INDEX") :: z)) with (Some z) end. cbn [andthen]. unfold r0. clear r0 h Sk. rewrite <- app_assoc. cbn [app].
  match goal with |- context [has [B"CONCURRENTLY"] (?a ++ ?z)] => set (r0 := z) end.
  match goal with |- (let '(conc0, r) := ?z in _) = _ => assert (z = (conc && match d with Postgres => true | _ => false end, r0)) as -> end.
  { destruct d; cbn [is dialect_eqb]; rewrite ?andb_false_r, ?andb_true_r; try reflexivity. destruct conc; [reflexivity|]. cbn [app].
    unfold has, r0. assert (forall r, kws [B"CONCURRENTLY"] (ntok Postgres (ix_name x) :: r) = None) as ->; [|reflexivity]. intros r. unfold ntok. destruct (needs_quoting Postgres (ix_name x)) eqn:Q; [reflexivity|]. apply kws_first.
    destruct (beqb_spec (to_lower (ix_name x)) (to_lower (B"CONCURRENTLY"))) as [E|]; [|reflexivity]. exfalso. unfold needs_quoting in Q. destruct (ix_name x) as [|c n]; [discriminate Q|]. destruct (bmem (c :: n) special_names) eqn:S.
    - apply bmem_In in S. vm_compute in S. repeat (destruct S as [S|S]; [rewrite <- S in E; discriminate E|]). exact S.
    - destruct (is_digit c || _); [discriminate Q|]. rewrite E in Q. discriminate Q. }
  unfold r0. clear r0. rewrite (read_name d _ _ (wx_name _ _ Hw)). cbn [andthen].
  match goal with |- context [match d with MySQL => maybe read_using ?z | _ => _ end] => set (r0 := z) end.
  set (tail := Sym "(" :: (commas (parts_toks d (ix_columns x) (ix_descending x))
         ++ Sym ")" :: (if negb (none (ix_include x)) && (is d Postgres || is d SQLServer) then Word (B"INCLUDE") :: Sym "(" :: ntoks d (ix_include x) ++ [Sym ")"] else [])
            ++ (if given (ix_predicate x) && (is d SQLite || is d Postgres || is d SQLServer) then Word (B"WHERE") :: text d (ix_predicate x) else [])) ++ more).
  set (us := if method d x then [Word (B"USING"); Word (ix_type x)] else [] : toks).
  assert (E0 : r0 = (if inline then [] else Word (B"ON") :: qtoks d q) ++ us ++ tail).
  { unfold r0, us, tail. repeat (rewrite <- !app_assoc; cbn [app]). reflexivity. }
  match goal with |- (let '(us, r) := ?z in _) = _ => assert (z = (None, r0)) as -> end.
  { destruct d eqn:Ed; try reflexivity. rewrite E0. unfold us, method. cbn [is dialect_eqb]. rewrite andb_false_r. cbn [andb app]. destruct inline; [reflexivity|]. cbn [app]. unfold maybe, read_using. destruct (qtoks MySQL q) as [|[w|w|w|w|w|z] l]; reflexivity. }
  rewrite E0. clear r0 E0.
  match goal with |- andthen ?z _ = _ => assert (z = Some (option_map path_of (if inline then None else Some q), us ++ tail)) as -> end.
  { destruct inline; [reflexivity|]. cbn [app]. match goal with |- context [kw ?k (_ :: ?z)] => change (kw k (Word (B"ON") :: z)) with (Some z) end. cbn [andthen]. rewrite (read_path d q _ Hq); [reflexivity|]. unfold us. destruct (method d x); reflexivity. }
  cbn [andthen].
  pose proof (method_is d x Hw) as Em.
  match goal with |- (let '(us, r) := ?z in _) = _ => assert (z = (method_of d x, tail)) as -> end.
  { rewrite Em. unfold us. destruct (method d x) eqn:Me.
    - assert (D : d = Postgres) by (unfold method in Me; destruct d; try reflexivity; cbn [is dialect_eqb] in Me; rewrite andb_false_r in Me; discriminate Me). rewrite D. reflexivity.
    - cbn [app]. unfold tail. clear. destruct d; reflexivity. }
  unfold tail. clear us tail. rewrite <- app_assoc. cbn [app]. rewrite (read_parens _ _ (parts_of d (ix_columns x) (ix_descending x) (ix_opclasses x))).
  2:{ apply (tlist_commas (read_part d) item_ends).
      - pose proof (wx_columns _ _ Hw) as N. destruct (ix_columns x); [congruence|discriminate].
      - apply parts_read; [exact (wx_each _ _ Hw)|exact (wx_classes _ _ Hw)].
      - reflexivity. - reflexivity. - reflexivity. }
  cbn [andthen]. rewrite <- app_assoc.
  match goal with |- context [maybe (read_include d) (?a ++ ?z)] => set (r0 := z) end.
  assert (W0 : kw (B"INCLUDE") r0 = None).
  { unfold r0. destruct (given (ix_predicate x) && _); [reflexivity|]. cbn [app]. apply at_end_kw. exact M. }
  match goal with |- (let '(inc, r) := ?z in _) = _ => assert (z = (if (negb (none (ix_include x)) && (is d Postgres || is d SQLServer)) then Some (ix_include x) else None, r0)) as -> end.
  { destruct d; cbn [is dialect_eqb orb]; rewrite ?andb_false_r, ?andb_true_r; try reflexivity; unfold maybe, read_include.
    - destruct (ix_include x) as [|n l] eqn:Ei; cbn [none negb app]; [rewrite W0; reflexivity|]. match goal with |- context [kw ?k (_ :: ?z)] => change (kw k (Word (B"INCLUDE") :: z)) with (Some z) end. cbn [andthen]. rewrite <- app_assoc. cbn [app].
      rewrite read_names_in; [reflexivity|]. split; [discriminate|]. rewrite <- Ei. exact (wx_include _ _ Hw).
    - destruct (ix_include x) as [|n l] eqn:Ei; cbn [none negb app]; [rewrite W0; reflexivity|]. match goal with |- context [kw ?k (_ :: ?z)] => change (kw k (Word (B"INCLUDE") :: z)) with (Some z) end. cbn [andthen]. rewrite <- app_assoc. cbn [app].
      rewrite read_names_in; [reflexivity|]. split; [discriminate|]. rewrite <- Ei. exact (wx_include _ _ Hw). }
  match goal with |- andthen ?z _ = _ => assert (z = Some (match d with MySQL => None | _ => option_map (text d) (if_given (ix_predicate x)) end, more)) as -> end.
  { unfold r0. pose proof (wx_where _ _ Hw) as Fw. destruct (ix_predicate x) as [|c0 p0] eqn:Ep.
    - cbn [given is_empty negb andb app if_given option_map]. rewrite (at_end_kw more _ M). destruct d; reflexivity.
    - rewrite <- Ep in *. assert (given (ix_predicate x) = true) as -> by (rewrite Ep; reflexivity). cbn [andb]. specialize (Fw ltac:(rewrite Ep; discriminate)). destruct (fits_text _ _ _ Fw) as (_ & Nw & Ww).
      assert (if_given (ix_predicate x) = Some (ix_predicate x)) as -> by (rewrite Ep; reflexivity).
      destruct d; cbn [is dialect_eqb orb app option_map]; try contradiction; try reflexivity.
      all: match goal with |- context [kw ?k (_ :: ?z)] => change (kw k (Word (B"WHERE") :: z)) with (Some z) end; cbv beta iota; rewrite some_run_whole by (try assumption; apply (at_end_stops more []); exact M); reflexivity. }
  cbn [andthen]. unfold index_meant. do 3 f_equal. clear - Hd. destruct d; cbn [is dialect_eqb orb]; rewrite ?andb_false_r, ?andb_true_r; try reflexivity; destruct (ix_include x); reflexivity.
Qed.
End Index.
