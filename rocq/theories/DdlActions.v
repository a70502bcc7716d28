(** The parts of ALTER TABLE are read as the changes that are meant. *)
From Verif Require Import GoStr GoStrFacts TrimFacts ModelSq SpecSql SqFacts SpecInsert SpecTokens TokenFacts TokenReads SpecDdl ModelCatalog ModelDdl ModelDiff ModelDiffSql ModelDdlText SpecDdlText DdlTokens DdlColumns DdlConstraints DdlIndexes.
From Coq Require Import ZifyBool ZifyNat.

Ltac kw_step := match goal with |- context [kw ?k (Word ?w :: ?z)] => change (kw k (Word w :: z)) with (Some z) end; cbn [andthen].
Ltac kws_step := match goal with
  | |- context [kws ?k (Word ?a :: Word ?b :: Word ?c :: Word ?e :: ?z)] => change (kws k (Word a :: Word b :: Word c :: Word e :: z)) with (Some z)
  | |- context [kws ?k (Word ?a :: Word ?b :: Word ?c :: ?z)] => change (kws k (Word a :: Word b :: Word c :: z)) with (Some z)
  | |- context [kws ?k (Word ?a :: Word ?b :: ?z)] => change (kws k (Word a :: Word b :: z)) with (Some z)
  | |- context [kws ?k (Word ?a :: ?z)] => change (kws k (Word a :: z)) with (Some z)
  end; cbn [andthen].

(** In MySQL indexes are created and dropped by ALTER TABLE too. *)
Definition part_action (d : dialect) (cur coll : bytes) (ref : column -> reference) (s : stmt) : option (qname * action) :=
  match s with
  | QCreateIndex q x _ => match d with MySQL => Some (q, AAddIndex (index_meant d None false x)) | _ => None end
  | QDropIndex q n => match d with MySQL => Some (q, ADropIndex n) | _ => None end
  | _ => action_of d cur coll ref s
  end.
Definition acts (d : dialect) (s : bytes) (a : action) : Prop :=
  exists w ts, Lex d s (Word w :: ts) /\ forall more, at_end more = true -> read_action d (Word w :: ts ++ more) = Some (a, more).
Lemma drop_name d w n f : plain_name d n -> (w = B"CONSTRAINT" /\ f = ADropConstraint \/ w = B"COLUMN" /\ f = ADropColumn) ->
  acts d (B"DROP " ++ w ++ B" " ++ quote_identifier d n) (f n) /\ acts d (B"DROP " ++ w ++ B" IF EXISTS " ++ quote_identifier d n) (f n).
Proof.
  intros P I. split.
  - exists (B"DROP"), [Word w; ntok d n]. split.
    + destruct I as [[-> ->]|[-> ->]].
      * apply (lex_fixed d (B"DROP CONSTRAINT ") _ [_; _] [_] ltac:(fix_text)). apply lex_name.
      * apply (lex_fixed d (B"DROP COLUMN ") _ [_; _] [_] ltac:(fix_text)). apply lex_name.
    + intros more M. assert (Ie : if_exists_ (ntok d n :: more) = ntok d n :: more).
      { unfold if_exists_, skip, has. assert (kws [B"IF"; B"EXISTS"] (ntok d n :: more) = None) as ->; [|reflexivity]. cbn [kws]. destruct (kw (B"IF") (ntok d n :: more)) as [r|] eqn:K; [|reflexivity].
        apply kw_inv in K as (w' & E & _). injection E as _ <-. cbn [andthen]. rewrite (at_end_kw more _ M). reflexivity. }
      destruct I as [[-> ->]|[-> ->]].
      * cbn [app]. match goal with |- read_action d (_ :: _ :: ?z) = _ => change (read_action d (Word (B"DROP") :: Word (B"CONSTRAINT") :: z)) with (a_name d ADropConstraint (if_exists_ z)) end. rewrite Ie. unfold a_name. rewrite (read_name d n more P). reflexivity.
      * cbn [app]. match goal with |- read_action d (_ :: _ :: ?z) = _ => change (read_action d (Word (B"DROP") :: Word (B"COLUMN") :: z)) with (a_name d ADropColumn (if_exists_ z)) end. rewrite Ie. unfold a_name. rewrite (read_name d n more P). reflexivity.
  - exists (B"DROP"), [Word w; Word (B"IF"); Word (B"EXISTS"); ntok d n]. split.
    + destruct I as [[-> ->]|[-> ->]].
      * apply (lex_fixed d (B"DROP CONSTRAINT IF EXISTS ") _ [_; _; _; _] [_] ltac:(fix_text)). apply lex_name.
      * apply (lex_fixed d (B"DROP COLUMN IF EXISTS ") _ [_; _; _; _] [_] ltac:(fix_text)). apply lex_name.
    + intros more M. destruct I as [[-> ->]|[-> ->]].
      * cbn [app]. match goal with |- read_action d (_ :: _ :: _ :: _ :: ?z) = _ => change (read_action d (Word (B"DROP") :: Word (B"CONSTRAINT") :: Word (B"IF") :: Word (B"EXISTS") :: z)) with (a_name d ADropConstraint z) end. unfold a_name. rewrite (read_name d n more P). reflexivity.
      * cbn [app]. match goal with |- read_action d (_ :: _ :: _ :: _ :: ?z) = _ => change (read_action d (Word (B"DROP") :: Word (B"COLUMN") :: Word (B"IF") :: Word (B"EXISTS") :: z)) with (a_name d ADropColumn z) end. unfold a_name. rewrite (read_name d n more P). reflexivity.
Qed.
Lemma drop_index_part n : plain_name MySQL n -> acts MySQL (B"DROP INDEX " ++ quote_identifier MySQL n) (ADropIndex n).
Proof.
  intros P. exists (B"DROP"), [Word (B"INDEX"); ntok MySQL n]. split; [apply (lex_fixed MySQL (B"DROP INDEX ") _ [_; _] [_] ltac:(fix_text)); apply lex_name|].
  intros more M. cbn [app]. match goal with |- read_action _ (_ :: _ :: ?z) = _ => change (read_action MySQL (Word (B"DROP") :: Word (B"INDEX") :: z)) with (a_name MySQL ADropIndex z) end. unfold a_name. rewrite (read_name _ n more P). reflexivity.
Qed.
Lemma add_column_part d coll level r c : d <> Other -> writable_column d coll level r c ->
  acts d (B"ADD " ++ opt (negb (is d SQLServer)) (B"COLUMN ") ++ write_column d coll c level r) (AAddColumn (column_meant d coll level r c)).
Proof.
  intros D W. destruct (column_reads d coll level r c D W) as (ts & L & R). destruct (is d SQLServer) eqn:Es.
  - assert (d = SQLServer) as -> by (destruct d; try discriminate Es; reflexivity). cbn [negb opt app]. exists (B"ADD"), (ntok SQLServer (col_name c) :: ts). split; [exact (lex_fixed SQLServer (B"ADD ") _ [_] _ ltac:(fix_text) L)|].
    intros more M. destruct (R more M) as [Rb Rc]. cbn [app] in *.
    match goal with |- read_action _ (_ :: ?z) = _ => change (read_action SQLServer (Word (B"ADD") :: z)) with (read_add_action SQLServer z) end.
    unfold read_add_action. rewrite Rb.
    assert (kw (B"DEFAULT") (ntok SQLServer (col_name c) :: ts ++ more) = None) as ->.
    { pose proof (name_not_kw _ _ _ (ntok_name SQLServer _ (wc_name _ _ _ _ _ W)) D) as K. destruct (kw (B"DEFAULT") (ntok SQLServer (col_name c) :: ts ++ more)) as [r'|] eqn:E; [|reflexivity]. exfalso.
      apply kw_inv in E as (w & E & Ew). injection E as E _. rewrite E in K. cbn [is_word] in K. rewrite (lower_upper _ _ Ew) in K. discriminate K. }
    cbn [andthen]. rewrite Rc. reflexivity.
  - cbn [negb opt]. exists (B"ADD"), (Word (B"COLUMN") :: ntok d (col_name c) :: ts). split; [rewrite app_assoc; exact (lex_fixed d (B"ADD COLUMN ") _ [_; _] _ ltac:(fix_text) L)|].
    intros more M. destruct (R more M) as [Rb Rc]. cbn [app] in *. unfold read_action.
    match goal with |- context [kw (B"DROP") ?z] => change (kw (B"DROP") z) with (@None toks) end. cbv beta iota. kw_step. cbv beta iota. unfold read_add_action.
    match goal with |- context [begins_index ?z] => change (begins_index z) with false end.
    match goal with |- context [kw (B"DEFAULT") ?z] => change (kw (B"DEFAULT") z) with (@None toks) end.
    assert (Bc : forall z, begins_constraint d (Word (B"COLUMN") :: z) = false) by (intros z; destruct d; reflexivity). rewrite Bc.
    match goal with |- context [kw (B"COLUMN") (_ :: ?z)] => change (kw (B"COLUMN") (Word (B"COLUMN") :: z)) with (Some z) end.
    destruct d; try discriminate Es; try congruence; cbn [andthen]; unfold toks in *; rewrite Rc; reflexivity.
Qed.
Lemma modify_part coll c : writable_column MySQL coll false no_reference c -> acts MySQL (B"MODIFY COLUMN " ++ write_column MySQL coll c false no_reference) (AModifyColumn (column_meant MySQL coll false no_reference c)).
Proof.
  intros W. destruct (column_reads MySQL coll false no_reference c ltac:(discriminate) W) as (ts & L & R). exists (B"MODIFY"), (Word (B"COLUMN") :: ntok MySQL (col_name c) :: ts).
  split; [exact (lex_fixed MySQL (B"MODIFY COLUMN ") _ [_; _] _ ltac:(fix_text) L)|]. intros more M. destruct (R more M) as [_ Rc]. cbn [app].
  match goal with |- read_action _ (_ :: _ :: ?z) = _ => change (read_action MySQL (Word (B"MODIFY") :: Word (B"COLUMN") :: z)) with (let? (c, r) := read_column MySQL z in Some (AModifyColumn c, r)) end. unfold toks in *. rewrite Rc. reflexivity.
Qed.
Lemma add_index_part cur x : writable_index MySQL x -> plain_table MySQL (qualify cur (ix_schema x) (ix_table x)) ->
  acts MySQL (B"ADD " ++ write_index MySQL cur x false true) (AAddIndex (index_meant MySQL None false x)).
Proof.
  intros W P. pose proof (index_lex MySQL cur x false true ltac:(discriminate) W P) as L. pose proof (fun more => index_read MySQL cur x false true ltac:(discriminate) W P more) as R.
  exists (B"ADD"), (index_toks MySQL cur x false true). split; [exact (lex_fixed MySQL (B"ADD ") _ [_] _ ltac:(fix_text) L)|]. intros more M. specialize (R more M).
  match goal with |- read_action _ (_ :: ?z) = _ => change (read_action MySQL (Word (B"ADD") :: z)) with (read_add_action MySQL z) end. unfold read_add_action.
  assert (begins_index (index_toks MySQL cur x false true ++ more) = true) as ->.
  { unfold index_toks. pose proof (special_facts MySQL x W) as Sk. destruct (ix_unique x); [reflexivity|]. destruct (special MySQL x); [|reflexivity]. destruct (Sk eq_refl) as (_ & E & _). cbn [app begins_index is_word]. rewrite E. reflexivity. }
  rewrite R. reflexivity.
Qed.

(** ** Constraints *)
Lemma not_using d ts x : read_constraint d ts = Some x -> read_using_index d ts = None.
Proof.
  unfold read_constraint, read_using_index. destruct (kw (B"CONSTRAINT") ts) as [r|]; [|reflexivity]. cbn [andthen]. destruct (name d r) as [[n r']|]; [|reflexivity]. cbn [andthen].
  intros H. assert (N : read_body d r' <> None) by (intros N; rewrite N in H; discriminate H). clear H. unfold read_body in N. destruct (kws [B"PRIMARY"; B"KEY"] r') as [r2|].
  - cbn [andthen]. destruct (kws [B"USING"; B"INDEX"] r2) as [r3|] eqn:K; [|reflexivity]. exfalso. apply N. cbn [kws] in K. destruct (kw (B"USING") r2) as [r4|] eqn:K2; [|discriminate K]. apply kw_inv in K2 as (w & -> & _). reflexivity.
  - destruct (kw (B"UNIQUE") r') as [r2|]; [|reflexivity]. cbn [andthen]. destruct (kws [B"USING"; B"INDEX"] r2) as [r3|] eqn:K; [|reflexivity]. exfalso. apply N. cbn [kws] in K. destruct (kw (B"USING") r2) as [r4|] eqn:K2; [|discriminate K]. apply kw_inv in K2 as (w & -> & _). reflexivity.
Qed.
Lemma not_index ts x : read_constraint MySQL ts = Some x -> begins_constraint MySQL ts = true -> begins_index ts = false.
Proof.
  destruct ts as [|t r]; [discriminate|]. unfold begins_constraint, begins_index. rewrite orb_false_r. intros R Bc. destruct t as [w|w|w|w|w|c]; try discriminate Bc. cbn [is_word map] in *. apply bmem_In in Bc.
  assert (Lw : to_lower w = to_lower (to_upper w)) by (symmetry; apply lower_of_upper).
  destruct Bc as [E|[E|[E|[E|[E|[]]]]]]; rewrite <- E in *; try reflexivity. cbn [orb].
  destruct r as [|[w2|w2|w2|w2|w2|c] r]; try reflexivity. cbn [is_word]. destruct (bmem (to_upper w2) [B"INDEX"]); [|reflexivity]. exfalso. revert R. unfold read_constraint. rewrite kw_not by (rewrite Lw; reflexivity).
  unfold read_body. rewrite kws_first by (rewrite Lw; reflexivity). rewrite (kw_word (B"UNIQUE") w) by (rewrite Lw; reflexivity). discriminate.
Qed.
Lemma not_default ts : begins_constraint SQLServer ts = true -> kw (B"DEFAULT") ts = None.
Proof.
  destruct ts as [|t r]; [discriminate|]. unfold begins_constraint. rewrite orb_false_r. destruct t as [w|w|w|w|w|c]; try discriminate. cbn [is_word]. intros Bc. destruct (kw (B"DEFAULT") (Word w :: r)) as [r'|] eqn:K; [|reflexivity]. exfalso.
  apply kw_inv in K as (w' & [= <- <-] & E). apply lower_upper in E. rewrite E in Bc. discriminate Bc.
Qed.
Lemma add_constraint_part d cur c nv : d <> Other -> writable_constraint d cur c -> (nv = true -> d = Postgres) ->
  acts d (B"ADD " ++ write_constraint d cur c ++ opt nv (B" NOT VALID")) (AAddConstraint (constraint_meant d cur c) nv).
Proof.
  intros D W Nv. destruct (constraint_reads d cur c W) as (ts & L & Hb & R). exists (B"ADD"), (ts ++ (if nv then [Word (B"NOT"); Word (B"VALID")] else [])). split.
  - apply (lex_fixed d (B"ADD ") _ [_] _ ltac:(fix_text)). apply (piece_after d _ _ _ _ L). apply piece_opt. intros _. piece_now.
  - intros more M. rewrite <- app_assoc. set (m := (if nv then [Word (B"NOT"); Word (B"VALID")] else []) ++ more).
    assert (Am : after_constraint m) by (unfold m; destruct nv; [right; exists more; reflexivity|left; exact M]). specialize (R m Am). specialize (Hb m).
    unfold read_action. match goal with |- context [kw (B"DROP") ?z] => change (kw (B"DROP") z) with (@None toks) end. cbv beta iota. kw_step. cbv beta iota. unfold read_add_action.
    assert ((match d with MySQL => begins_index (ts ++ m) | _ => false end) = false) as ->.
    { destruct d; try reflexivity. exact (not_index _ _ R Hb). }
    match goal with |- match ?z with _ => _ end = _ => assert (z = None) as -> by (destruct d; try reflexivity; apply not_default; exact Hb) end.
    rewrite Hb. match goal with |- match ?z with _ => _ end = _ => assert (z = None) as -> by (destruct d; try reflexivity; exact (not_using _ _ _ R)) end.
    unfold read_add_constraint. rewrite R. cbn [andthen].
    match goal with |- (let '(nv0, r) := ?z in _) = _ => assert (z = (nv, more)) as ->; [|reflexivity] end.
    unfold m. destruct nv; [rewrite (Nv eq_refl); reflexivity|]. cbn [app]. destruct d; try reflexivity. unfold has. assert (kws [B"NOT"; B"VALID"] more = None) as ->; [|reflexivity]. cbn [kws]. rewrite (at_end_kw more _ M). reflexivity.
Qed.
Lemma using_index_part n ty : plain_name Postgres n -> In ty [PRIMARY_KEY; UNIQUE] ->
  acts Postgres (B"ADD CONSTRAINT " ++ quote_identifier Postgres n ++ B" " ++ ty ++ B" USING INDEX " ++ quote_identifier Postgres n) (AAddUsingIndex n (beqb ty PRIMARY_KEY) n).
Proof.
  intros P I. exists (B"ADD"), (Word (B"CONSTRAINT") :: ntok Postgres n :: (if beqb ty PRIMARY_KEY then [Word (B"PRIMARY"); Word (B"KEY")] else [Word (B"UNIQUE")]) ++ [Word (B"USING"); Word (B"INDEX"); ntok Postgres n]). split.
  - apply (lex_fixed Postgres (B"ADD CONSTRAINT ") _ [_; _] _ ltac:(fix_text)). apply (lex_app Postgres _ _ [_] _ (lex_name _ _)); [|ending]. apply lex_one_space.
    destruct I as [<-|[<-|[]]]; rewrite app_assoc.
    + apply (lex_fixed Postgres (PRIMARY_KEY ++ B" USING INDEX ") _ [_; _; _; _] [_] ltac:(fix_text)). apply lex_name.
    + apply (lex_fixed Postgres (UNIQUE ++ B" USING INDEX ") _ [_; _; _] [_] ltac:(fix_text)). apply lex_name.
  - intros more M. cbn [app]. rewrite <- app_assoc. cbn [app].
    match goal with |- read_action _ (_ :: _ :: ?z) = _ => change (read_action Postgres (Word (B"ADD") :: Word (B"CONSTRAINT") :: z)) with (match read_using_index Postgres (Word (B"CONSTRAINT") :: z) with Some x => Some x | None => read_add_constraint Postgres (Word (B"CONSTRAINT") :: z) end) end.
    unfold read_using_index. kw_step. rewrite (read_name _ n _ P). cbn [andthen]. destruct I as [<-|[<-|[]]].
    + change (beqb PRIMARY_KEY PRIMARY_KEY) with true. cbv iota. cbn [app]. match goal with |- context [kws ?k (Word ?a :: Word ?b :: ?z)] => change (kws k (Word a :: Word b :: z)) with (Some z) end. cbn [andthen]. match goal with |- context [kws ?k (Word ?a :: Word ?b :: ?z)] => change (kws k (Word a :: Word b :: z)) with (Some z) end. cbn [andthen]. rewrite (read_name _ n _ P). reflexivity.
    + change (beqb UNIQUE PRIMARY_KEY) with false. cbv iota. cbn [app]. match goal with |- context [kws [B"PRIMARY"; B"KEY"] ?z] => change (kws [B"PRIMARY"; B"KEY"] z) with (@None toks) end. cbv iota. kw_step. match goal with |- context [kws ?k (Word ?a :: Word ?b :: ?z)] => change (kws k (Word a :: Word b :: z)) with (Some z) end. cbn [andthen]. rewrite (read_name _ n _ P). reflexivity.
Qed.

(** ** Columns that are altered *)
Definition atok (d : dialect) (n : bytes) : token := match d with Postgres => Word n | _ => ntok d n end.
Lemma altered_lex d n : altered_name d n -> Lex d (altered d n) [atok d n].
Proof. unfold altered_name, altered, atok. destruct d; try (intros _; apply lex_name). intros [L _]. apply lex_tokens. exact L. Qed.
Lemma altered_read d n more : altered_name d n -> name d (atok d n :: more) = Some (n, more).
Proof. unfold altered_name, atok. destruct d; try (apply read_name). intros [_ N]. cbn [name]. rewrite N. reflexivity. Qed.
Lemma alter_lex d n s ts : altered_name d n -> Piece d s ts -> Lex d (B"ALTER COLUMN " ++ altered d n ++ s) (Word (B"ALTER") :: Word (B"COLUMN") :: atok d n :: ts).
Proof. intros A P. apply (lex_fixed d (B"ALTER COLUMN ") _ [_; _] _ ltac:(fix_text)). exact (piece_after d _ _ [_] _ (altered_lex d n A) P). Qed.
Lemma alter_reads d n ts more : In d [Postgres; SQLServer] ->
  read_action d (Word (B"ALTER") :: Word (B"COLUMN") :: atok d n :: ts ++ more) = read_alter_column d (atok d n :: ts ++ more).
Proof. intros [<-|[<-|[]]]; reflexivity. Qed.
Lemma alter_part d n s ts a : In d [Postgres; SQLServer] -> altered_name d n -> Piece d s ts ->
  (forall more, at_end more = true -> read_alter_column d (atok d n :: ts ++ more) = Some (a, more)) -> acts d (B"ALTER COLUMN " ++ altered d n ++ s) a.
Proof.
  intros D A P R. exists (B"ALTER"), (Word (B"COLUMN") :: atok d n :: ts). split; [exact (alter_lex d n s ts A P)|]. intros more M. cbn [app]. rewrite (alter_reads d n ts more D). exact (R more M).
Qed.
Lemma word_chars d n : tokens d n = Some [Word n] -> forallb ident_continue n = true.
Proof.
  intros T. apply tokens_lexed in T. assert (G : forall s ts r, lexed d s ts r -> forall w, In (Word w) ts -> forallb ident_continue w = true).
  { clear. intros s ts r L. induction L as [s|s ts r ts' r' O L IH]; intros w I; [destruct I|]. apply in_app_iff in I as [I|I]; [|exact (IH w I)]. clear IH L.
    destruct s as [|c s]; [discriminate O|]. unfold lex_one in O. destruct (is_space c); [injection O as <- <-; destruct I|].
    destruct (ceqb c squote); [destruct (lex_strlit d s) as [[v r0]|]; [|discriminate O]; injection O as <- <-; destruct I as [I|[]]; discriminate I|].
    destruct (ceqb c (id_open d)); [destruct (lex_quoted (id_close d) s) as [[v r0]|]; [|discriminate O]; injection O as <- <-; destruct I as [I|[]]; discriminate I|].
    destruct (strip_prefix (B"x'") (c :: s)) as [s2|].
    - destruct (cut_byte squote s2) as [[h r0]|]; [|discriminate O]. cbn [andthen] in O. destruct (hex_decode h); [|discriminate O]. injection O as <- <-. destruct I as [I|[]]; discriminate I.
    - destruct (ident_start c); [|destruct (is_digit c); [destruct (take_number (c :: s)); injection O as <- <-; destruct I as [I|[]]; discriminate I|destruct (comment c s); [discriminate O|injection O as <- <-; destruct I as [I|[]]; discriminate I]]].
      destruct (take_ident (c :: s)) as [w' r0] eqn:T. injection O as <- <-. destruct I as [[= <-]|[]]. exact (take_ident_all _ _ _ T). }
  exact (G _ _ _ T n (or_introl eq_refl)).
Qed.
Lemma escape_none q n : ~ In q n -> escape_quote q n = n.
Proof.
  induction n as [|x n IH]; intros N; [reflexivity|]. cbn [escape_quote]. destruct (ceqb_spec x q) as [->|Nx]; [exfalso; apply N; left; reflexivity|]. f_equal. apply IH. intros I. apply N. right. exact I.
Qed.
Lemma raw_escape d n : raw_word d n -> escape_quote "["%char n = n.
Proof.
  intros [T _]. apply escape_none. intros I. pose proof (word_chars d n T) as C. rewrite forallb_forall in C. specialize (C _ I). discriminate C.
Qed.
Lemma clause_identity d ts more i : read_clause d ts = Some (CIdentity i, more) -> read_identity d ts = Some (i, more).
Proof.
  unfold read_clause. destruct (kws [B"PRIMARY"; B"KEY"] ts); [discriminate|].
  destruct (match d with MySQL => kw (B"AUTO_INCREMENT") ts | SQLite => kw (B"AUTOINCREMENT") ts | _ => None end); [discriminate|].
  destruct (kws [B"NOT"; B"NULL"] ts); [discriminate|]. destruct (kw (B"UNIQUE") ts); [discriminate|].
  destruct (read_identity d ts) as [[i' r]|]; [intros [= <- <-]; reflexivity|].
  destruct (kw (B"DEFAULT") ts) as [r|]; [destruct (operand clauses r) as [[e r']|]; discriminate|].
  destruct (match d with MySQL => kws [B"ON"; B"UPDATE"; B"CURRENT_TIMESTAMP"] ts | _ => None end); [discriminate|].
  destruct (kw (B"COLLATE") ts) as [r|]; [destruct (name d r) as [[e r']|]; discriminate|].
  destruct (read_generated d ts) as [[[e b] r]|]; [discriminate|]. destruct (read_refers d ts) as [[x r]|]; discriminate.
Qed.
(** The type, collation and nullability in ALTER COLUMN. *)
Definition coll_tok (d : dialect) (s : bytes) : token := match d with Postgres => Quoted s | _ => Word s end.
Definition type_toks (d : dialect) (ty : bytes) (co : option bytes) (null : option bool) : toks :=
  (match d with Postgres => [Word (B"TYPE")] | _ => [] end) ++ text d ty
  ++ (match co with Some s => [Word (B"COLLATE"); coll_tok d s] | None => [] end)
  ++ (match null with Some true => [Word (B"NULL")] | Some false => [Word (B"NOT"); Word (B"NULL")] | None => [] end).
Lemma null_read (null : option bool) more : at_end more = true ->
  maybe read_null ((match null with Some true => [Word (B"NULL")] | Some false => [Word (B"NOT"); Word (B"NULL")] | None => [] end) ++ more) = (null, more).
Proof.
  intros M. destruct null as [[|]|]; try reflexivity. cbn [app]. unfold maybe, read_null. cbn [kws]. rewrite !(at_end_kw more _ M). reflexivity.
Qed.
Lemma coll_read d co (null : option bool) more : at_end more = true -> In d [Postgres; SQLServer] ->
  (forall s : bytes, co = Some s -> match d with Postgres => plain_name d s | _ => raw_word d s end) ->
  let rest := (match null with Some true => [Word (B"NULL")] | Some false => [Word (B"NOT"); Word (B"NULL")] | None => [] end) ++ more in
  maybe (read_collate d) ((match co with Some s => [Word (B"COLLATE"); coll_tok d s] | None => [] end) ++ rest) = (co, rest).
Proof.
  intros M D C rest. destruct co as [s|].
  - specialize (C s eq_refl). cbn [app]. unfold maybe, read_collate. kw_step. assert (name d (coll_tok d s :: rest) = Some (s, rest)) as ->; [|reflexivity].
    destruct D as [<-|[<-|[]]]; cbn [name coll_tok]; [reflexivity|]. destruct C as [_ ->]. reflexivity.
  - cbn [app]. unfold maybe, read_collate. assert (kw (B"COLLATE") rest = None) as ->; [|reflexivity]. unfold rest. destruct null as [[|]|]; try reflexivity. exact (at_end_kw more _ M).
Qed.
Lemma type_part d n ty co null : In d [Postgres; SQLServer] -> altered_name d n -> fits d clauses ty -> (d = Postgres -> null = None) ->
  (forall s : bytes, co = Some s -> match d with Postgres => plain_name d s | _ => raw_word d s end) ->
  acts d (B"ALTER COLUMN " ++ altered d n ++ (match d with Postgres => B" TYPE " | _ => B" " end) ++ ty
      ++ (match co with
          | Some s => B" COLLATE " ++ match d with Postgres => dquote :: escape_quote dquote s ++ [dquote] | _ => escape_quote "["%char s end
          | None => []
          end)
      ++ (match null with Some true => B" NULL" | Some false => B" NOT NULL" | None => [] end)) (ASetType n (map up (text d ty)) co null).
Proof.
  intros D A F Np C. destruct (fits_text _ _ _ F) as (L & Ne & W).
  apply (alter_part d n _ (type_toks d ty co null) _ D A).
  - assert (Pn : Piece d (match null with Some true => B" NULL" | Some false => B" NOT NULL" | None => [] end) (match null with Some true => [Word (B"NULL")] | Some false => [Word (B"NOT"); Word (B"NULL")] | None => [] end)).
    { destruct null as [[|]|]; [piece_now|piece_now|apply piece_nil]. }
    assert (Pc : Piece d (match co with Some s => B" COLLATE " ++ match d with Postgres => dquote :: escape_quote dquote s ++ [dquote] | _ => escape_quote "["%char s end | None => [] end) (match co with Some s => [Word (B"COLLATE"); coll_tok d s] | None => [] end)).
    { destruct co as [s|]; [|apply piece_nil]. specialize (C s eq_refl). refine (piece_fixed d (B" COLLATE ") _ [_] [_] ltac:(fix_text) ltac:(discriminate) ltac:(ending) _).
      destruct D as [<-|[<-|[]]]; [exact (quoted_lex s C)|]. cbn [coll_tok]. rewrite (raw_escape _ _ C). apply lex_tokens. exact (proj1 C). }
    pose proof (piece_after d _ _ _ _ L (piece_app d _ _ _ _ Pc Pn)) as Lt. unfold type_toks.
    destruct D as [<-|[<-|[]]]; [exact (piece_fixed Postgres (B" TYPE ") _ [_] _ ltac:(fix_text) ltac:(discriminate) ltac:(ending) Lt)|exact (piece_space SQLServer _ _ Lt)].
  - intros more M. unfold read_alter_column. rewrite (altered_read d n _ A). cbn [andthen]. unfold type_toks. rewrite <- !app_assoc.
    pose proof (coll_read d co null more M D C) as Rc. cbv zeta in Rc. pose proof (null_read null more M) as Rn. revert Rc Rn.
    set (mn := (match null with Some true => [Word (B"NULL")] | Some false => [Word (B"NOT"); Word (B"NULL")] | None => [] end) ++ more). set (mc := (match co with Some s => [Word (B"COLLATE"); coll_tok d s] | None => [] end) ++ mn). intros Rc Rn.
    assert (St : stops clauses mc).
    { unfold mc, mn. destruct co; [reflexivity|]. destruct null as [[|]|]; try reflexivity. exact (at_end_stops more clauses M). }
    pose proof (some_run_whole clauses (text d ty) mc W Ne St) as R. revert R Rc Rn. generalize dependent mc. intros mc _ R Rc Rn. unfold toks in *.
    destruct D as [<-|[<-|[]]].
    + cbn [app]. match goal with |- context [kw (B"TYPE") (_ :: ?z)] => change (kw (B"TYPE") (Word (B"TYPE") :: z)) with (Some z) end. cbv iota. rewrite R. cbn [andthen]. rewrite Rc. unfold mn. rewrite (Np eq_refl). reflexivity.
    + cbn [app]. rewrite R. cbn [andthen]. rewrite Rc, Rn. reflexivity.
Qed.
Lemma simple_part n s ts a : altered_name Postgres n -> Piece Postgres s ts -> (forall more, at_end more = true -> read_alter_column Postgres (Word n :: ts ++ more) = Some (a, more)) ->
  acts Postgres (B"ALTER COLUMN " ++ altered Postgres n ++ s) a.
Proof. intros A P R. exact (alter_part Postgres n s ts a ltac:(left; reflexivity) A P R). Qed.
Lemma operand_lex d stop e : fits_operand d stop e -> exists t ts, Lex d e (text d e) /\ text d e = t :: ts /\ forall more, stops stop more -> operand stop (text d e ++ more) = Some (text d e, more).
Proof.
  intros (t & ts & T & E & W). destruct (lex_text d e _ T) as [L Et]. exists t, ts. split; [exact L|]. split; [exact Et|]. intros more M. rewrite Et. exact (operand_whole stop t ts more E W M).
Qed.
Lemma default_part d n e : altered_name d n -> match d with Postgres => fits_operand d [] e | SQLServer => fits_operand d [B"FOR"] e | _ => False end ->
  acts d (match d with SQLServer => B"ADD DEFAULT " ++ e ++ B" FOR " ++ quote_identifier d n | _ => B"ALTER COLUMN " ++ altered d n ++ B" SET DEFAULT " ++ e end) (ASetDefault n (text d e)).
Proof.
  intros A F. destruct d; try contradiction F.
  - destruct (operand_lex _ _ _ F) as (t & ts & L & Et & R). apply (simple_part n _ ([Word (B"SET"); Word (B"DEFAULT")] ++ text Postgres e)); [exact A|exact (piece_fixed Postgres (B" SET DEFAULT ") _ [_; _] _ ltac:(fix_text) ltac:(discriminate) ltac:(ending) L)|].
    intros more M. unfold read_alter_column. rewrite (altered_read Postgres n _ A). cbn [andthen app].
    match goal with |- context [kw (B"TYPE") ?z] => change (kw (B"TYPE") z) with (@None toks) end. cbv iota. match goal with |- context [kws _ (Word (B"SET") :: Word (B"DEFAULT") :: ?z)] => change (kws [B"SET"; B"DEFAULT"] (Word (B"SET") :: Word (B"DEFAULT") :: z)) with (Some z) end. cbv iota.
    rewrite (R more (at_end_stops more _ M)). reflexivity.
  - destruct (operand_lex _ _ _ F) as (t & ts & L & Et & R). exists (B"ADD"), (Word (B"DEFAULT") :: text SQLServer e ++ [Word (B"FOR"); ntok SQLServer n]). split.
    + apply (lex_fixed SQLServer (B"ADD DEFAULT ") _ [_; _] _ ltac:(fix_text)). apply (piece_after SQLServer _ _ _ _ L). exact (piece_fixed SQLServer (B" FOR ") _ [_] [_] ltac:(fix_text) ltac:(discriminate) ltac:(ending) (lex_name _ _)).
    + intros more M. cbn [app]. rewrite <- app_assoc. cbn [app]. match goal with |- read_action _ (_ :: _ :: ?z) = _ => change (read_action SQLServer (Word (B"ADD") :: Word (B"DEFAULT") :: z)) with (let? (e, r) := operand [B"FOR"] z in let? r := kw (B"FOR") r in let? (n, r) := name SQLServer r in Some (ASetDefault n e, r)) end.
      rewrite (R (Word (B"FOR") :: ntok SQLServer n :: more) eq_refl). cbn [andthen]. kw_step. rewrite (read_name _ n more A). reflexivity.
Qed.
Lemma drop_default_part n : altered_name Postgres n -> acts Postgres (B"ALTER COLUMN " ++ altered Postgres n ++ B" DROP DEFAULT") (ADropDefault n).
Proof.
  intros A. apply (simple_part n _ [Word (B"DROP"); Word (B"DEFAULT")]); [exact A|piece_now|]. intros more M. unfold read_alter_column. rewrite (altered_read Postgres n _ A : name Postgres (Word n :: _) = _). reflexivity.
Qed.
Lemma set_notnull_part n : altered_name Postgres n -> acts Postgres (B"ALTER COLUMN " ++ altered Postgres n ++ B" SET NOT NULL") (ASetNotNull n).
Proof.
  intros A. apply (simple_part n _ [Word (B"SET"); Word (B"NOT"); Word (B"NULL")]); [exact A|piece_now|]. intros more M. unfold read_alter_column. rewrite (altered_read Postgres n _ A : name Postgres (Word n :: _) = _). reflexivity.
Qed.
Lemma drop_notnull_part n : altered_name Postgres n -> acts Postgres (B"ALTER COLUMN " ++ altered Postgres n ++ B" DROP NOT NULL") (ADropNotNull n).
Proof.
  intros A. apply (simple_part n _ [Word (B"DROP"); Word (B"NOT"); Word (B"NULL")]); [exact A|piece_now|]. intros more M. unfold read_alter_column. rewrite (altered_read Postgres n _ A : name Postgres (Word n :: _) = _). reflexivity.
Qed.
Lemma drop_identity_part n : altered_name Postgres n -> acts Postgres (B"ALTER COLUMN " ++ altered Postgres n ++ B" DROP IDENTITY") (ADropIdentity n).
Proof.
  intros A. apply (simple_part n _ [Word (B"DROP"); Word (B"IDENTITY")]); [exact A|piece_now|]. intros more M. unfold read_alter_column. rewrite (altered_read Postgres n _ A : name Postgres (Word n :: _) = _). reflexivity.
Qed.
Lemma add_identity_part n k : altered_name Postgres n -> k <> [] -> fits_identity Postgres k -> exists i, identity_of Postgres k = Some i /\ acts Postgres (B"ALTER COLUMN " ++ altered Postgres n ++ B" ADD " ++ k) (AAddIdentity n i).
Proof.
  intros A N F. destruct (identity_toks Postgres k ltac:(left; reflexivity) F N) as (i & E & L & _ & R). exists i. split; [exact E|].
  apply (simple_part n _ ([Word (B"ADD")] ++ text Postgres k)); [exact A|exact (piece_fixed Postgres (B" ADD ") _ [_] _ ltac:(fix_text) ltac:(discriminate) ltac:(ending) L)|].
  intros more M. unfold read_alter_column. rewrite (altered_read Postgres n _ A : name Postgres (Word n :: _) = _). cbn [andthen app].
  match goal with |- context [kw (B"TYPE") (Word (B"ADD") :: ?z)] => set (u := z) end.
  change (kw (B"TYPE") (Word (B"ADD") :: u)) with (@None toks). change (kws [B"SET"; B"DEFAULT"] (Word (B"ADD") :: u)) with (@None toks). change (kws [B"DROP"; B"DEFAULT"] (Word (B"ADD") :: u)) with (@None toks). change (kws [B"SET"; B"NOT"; B"NULL"] (Word (B"ADD") :: u)) with (@None toks). change (kws [B"DROP"; B"NOT"; B"NULL"] (Word (B"ADD") :: u)) with (@None toks). change (kws [B"DROP"; B"IDENTITY"] (Word (B"ADD") :: u)) with (@None toks). cbv iota.
  change (kw (B"ADD") (Word (B"ADD") :: u)) with (Some u). cbn [andthen]. unfold u. rewrite (clause_identity _ _ _ _ (R more (or_introl M))). reflexivity.
Qed.
Lemma add_check_part name n : plain_name Postgres name -> altered_name Postgres n ->
  acts Postgres (B"ADD CONSTRAINT " ++ quote_identifier Postgres name ++ B" CHECK (" ++ altered Postgres n ++ B" IS NOT NULL) NOT VALID")
    (AAddConstraint (ConstraintDef (Some name) (BCheck (not_null n)) (false, false)) true).
Proof.
  intros P A. exists (B"ADD"), (Word (B"CONSTRAINT") :: ntok Postgres name :: Word (B"CHECK") :: Sym "(" :: Word n :: [Word (B"IS"); Word (B"NOT"); Word (B"NULL"); Sym ")"; Word (B"NOT"); Word (B"VALID")]). split.
  - apply (lex_fixed Postgres (B"ADD CONSTRAINT ") _ [_; _] _ ltac:(fix_text)). apply (piece_after Postgres _ _ [_] _ (lex_name _ _)).
    refine (piece_fixed Postgres (B" CHECK (") _ [_; _] _ ltac:(fix_text) ltac:(discriminate) ltac:(ending) _). apply (piece_after Postgres _ _ [_] _ (altered_lex Postgres n A)). piece_now.
  - intros more M. cbn [app].
    match goal with |- read_action _ (_ :: _ :: ?z) = _ => change (read_action Postgres (Word (B"ADD") :: Word (B"CONSTRAINT") :: z)) with (match read_using_index Postgres (Word (B"CONSTRAINT") :: z) with Some x => Some x | None => read_add_constraint Postgres (Word (B"CONSTRAINT") :: z) end) end.
    unfold read_add_constraint, read_constraint, read_using_index. kw_step. rewrite (read_name _ name _ P). cbn [andthen].
    match goal with |- context [kws [B"PRIMARY"; B"KEY"] ?z] => change (kws [B"PRIMARY"; B"KEY"] z) with (@None toks); change (kw (B"UNIQUE") z) with (@None toks) end. cbv iota. cbn [andthen].
    match goal with |- context [read_body Postgres (Word (B"CHECK") :: ?z)] => change (read_body Postgres (Word (B"CHECK") :: z)) with (let? (e, r) := parens expression z in Some (BCheck e, r)) end.
    assert (Wn : whole [] 0 (not_null n) = true) by reflexivity.
    pose proof (parens_whole (not_null n) (Word (B"NOT") :: Word (B"VALID") :: more) Wn ltac:(discriminate)) as Pe. cbn [not_null app] in Pe. rewrite Pe. reflexivity.
Qed.
Lemma alter_constraint_part n (a b : bool) : plain_name Postgres n ->
  acts Postgres (B"ALTER CONSTRAINT " ++ quote_identifier Postgres n ++ (if a then B" DEFERRABLE" else B" NOT DEFERRABLE") ++ opt b (B" INITIALLY DEFERRED")) (AAlterConstraint n a b).
Proof.
  intros P. exists (B"ALTER"), (Word (B"CONSTRAINT") :: ntok Postgres n :: (if a then [] else [Word (B"NOT")]) ++ Word (B"DEFERRABLE") :: (if b then [Word (B"INITIALLY"); Word (B"DEFERRED")] else [])). split.
  - apply (lex_fixed Postgres (B"ALTER CONSTRAINT ") _ [_; _] _ ltac:(fix_text)). apply (piece_after Postgres _ _ [_] _ (lex_name _ _)). destruct a, b; piece_now.
  - intros more M. cbn [app]. match goal with |- read_action _ (_ :: _ :: ?z) = _ => change (read_action Postgres (Word (B"ALTER") :: Word (B"CONSTRAINT") :: z)) with (read_alter_constraint Postgres z) end.
    unfold read_alter_constraint. rewrite (read_name _ n _ P). cbn [andthen]. assert (Hm : has [B"INITIALLY"; B"DEFERRED"] more = (false, more)) by (unfold has; cbn [kws]; rewrite (at_end_kw more _ M); reflexivity).
    destruct a, b; try reflexivity; cbn [app].
    + change (has [B"NOT"] (Word (B"DEFERRABLE") :: more)) with (false, Word (B"DEFERRABLE") :: more). cbv iota. kw_step. rewrite Hm. reflexivity.
    + change (has [B"NOT"] (Word (B"NOT") :: Word (B"DEFERRABLE") :: more)) with (true, Word (B"DEFERRABLE") :: more). cbv iota. kw_step. rewrite Hm. reflexivity.
Qed.
Lemma validate_part n : plain_name Postgres n -> acts Postgres (B"VALIDATE CONSTRAINT " ++ quote_identifier Postgres n) (AValidate n).
Proof.
  intros P. exists (B"VALIDATE"), [Word (B"CONSTRAINT"); ntok Postgres n]. split; [apply (lex_fixed Postgres (B"VALIDATE CONSTRAINT ") _ [_; _] [_] ltac:(fix_text)); apply lex_name|].
  intros more M. cbn [app]. match goal with |- read_action _ (_ :: _ :: ?z) = _ => change (read_action Postgres (Word (B"VALIDATE") :: Word (B"CONSTRAINT") :: z)) with (a_name Postgres AValidate z) end. unfold a_name. rewrite (read_name _ n more P). reflexivity.
Qed.
Lemma rename_part n : plain_name SQLite n -> acts SQLite (B"RENAME TO " ++ quote_identifier SQLite n) (ARename n).
Proof.
  intros P. exists (B"RENAME"), [Word (B"TO"); ntok SQLite n]. split; [apply (lex_fixed SQLite (B"RENAME TO ") _ [_; _] [_] ltac:(fix_text)); apply lex_name|].
  intros more M. cbn [app]. match goal with |- read_action _ (_ :: _ :: ?z) = _ => change (read_action SQLite (Word (B"RENAME") :: Word (B"TO") :: z)) with (a_name SQLite ARename z) end. unfold a_name. rewrite (read_name _ n more P). reflexivity.
Qed.

(** ** All parts *)
Lemma part_acts d cur coll ref s : d <> Other -> writable d cur coll ref s -> part_action d cur coll ref s <> None ->
  exists a, part_action d cur coll ref s = Some (table_of s, a) /\ plain_table d (table_of s) /\ acts d (write_part d cur coll ref s) a.
Proof.
  intros D W N. destruct s; cbn [part_action action_of] in *; try congruence; cbn [writable table_of write_part] in *.
  all: try (unfold if_exists; destruct W as (Pq & Pn); eexists; split; [reflexivity|]; split; [exact Pq|]; destruct d; cbn [is opt]; first [exact (proj1 (drop_name _ _ _ _ Pn (or_introl (conj eq_refl eq_refl))))|exact (proj1 (drop_name _ _ _ _ Pn (or_intror (conj eq_refl eq_refl))))|exact (proj2 (drop_name _ _ _ _ Pn (or_introl (conj eq_refl eq_refl))))|exact (proj2 (drop_name _ _ _ _ Pn (or_intror (conj eq_refl eq_refl))))]).
  - destruct W as (-> & Pq & Pn). eexists. split; [reflexivity|]. split; [exact Pq|]. exact (rename_part n Pn).
  - destruct d; try congruence. destruct W as (Pq & -> & Wx). eexists. split; [reflexivity|]. split; [exact Pq|]. exact (add_index_part cur x Wx Pq).
  - destruct d; try congruence. destruct W as (Pq & Pn & _). eexists. split; [reflexivity|]. split; [exact Pq|]. exact (drop_index_part n Pn).
  - destruct W as (Pq & Wc). eexists. split; [reflexivity|]. split; [exact Pq|]. replace (is d SQLite) with (sqlite d) by (destruct d; reflexivity). exact (add_column_part d coll _ _ c D Wc).
  - destruct W as (-> & Pq & Wc). eexists. split; [reflexivity|]. split; [exact Pq|]. exact (modify_part coll c Wc).
  - destruct W as (Dd & Pq & A & F & Np & C). eexists. split; [reflexivity|]. split; [exact Pq|]. exact (type_part d n ty _ null Dd A F Np C).
  - destruct W as (Pq & A & F). eexists. split; [reflexivity|]. split; [exact Pq|]. exact (default_part d n def A F).
  - destruct W as (-> & Pq & A). eexists. split; [reflexivity|]. split; [exact Pq|]. exact (drop_default_part n A).
  - destruct W as (-> & Pq & A). eexists. split; [reflexivity|]. split; [exact Pq|]. exact (set_notnull_part n A).
  - destruct W as (-> & Pq & A). eexists. split; [reflexivity|]. split; [exact Pq|]. exact (drop_notnull_part n A).
  - destruct W as (-> & Pq & A & K & F). destruct (add_identity_part n _ A K F) as (i & E & X). rewrite E. eexists. split; [reflexivity|]. split; [exact Pq|]. exact X.
  - destruct W as (-> & Pq & A). eexists. split; [reflexivity|]. split; [exact Pq|]. exact (drop_identity_part n A).
  - destruct W as (-> & Pq & Pn & A). eexists. split; [reflexivity|]. split; [exact Pq|]. exact (add_check_part _ _ Pn A).
  - destruct W as (Pq & Wk & Nv). eexists. split; [reflexivity|]. split; [exact Pq|]. exact (add_constraint_part d cur c _ D Wk Nv).
  - destruct W as (-> & Pq & Pn & Ty). eexists. split; [reflexivity|]. split; [exact Pq|]. exact (using_index_part _ _ Pn Ty).
  - destruct W as (-> & Pq & Pn). eexists. split; [reflexivity|]. split; [exact Pq|]. exact (alter_constraint_part _ _ _ Pn).
  - destruct W as (-> & Pq & Pn). eexists. split; [reflexivity|]. split; [exact Pq|]. exact (validate_part n Pn).
Qed.
