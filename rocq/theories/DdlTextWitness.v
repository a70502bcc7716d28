(** Catalogs for the examples of PropDdlText.v. *)
From Verif Require Import GoStr GoStrFacts SpecSql SpecInsert SpecTokens SpecDdl ModelCatalog ModelCache ModelDdl ModelDiff ModelDiffSql ModelDdlText SpecDdlText DiffWitness.

(** A catalog with columns of all kinds. *)
Definition the_schema (d : dialect) : bytes := match d with SQLite => [] | _ => B"shop" end.
Definition key_column (d : dialect) (t n : bytes) : column :=
  Column (the_schema d) t n (match d with SQLite => B"INTEGER" | _ => B"INT" end) [] [] [] [] false true
    true false (match d with MySQL => true | _ => false end)
    (match d with Postgres => B"GENERATED BY DEFAULT AS IDENTITY (START WITH 10)" | SQLServer => B"IDENTITY(1, 1)" | _ => [] end)
    [] false false [] false [] false.
Definition some_column (d : dialect) (t n ty : bytes) (notnull : bool) (def coll expr : bytes) (stored : bool) : column :=
  Column (the_schema d) t n ty [] [] [] [] false notnull false false false [] def false
    (negb (is_empty expr)) expr stored coll false.
Definition collation_name (d : dialect) : bytes :=
  match d with SQLite => B"NOCASE" | Postgres => B"de-x-icu" | MySQL => B"latin1_bin" | _ => B"Latin1_General_CI_AS" end.
Definition total_column (d : dialect) : column :=
  some_column d (B"order line") (B"total") (match d with SQLServer => [] | _ => B"NUMERIC(10,2)" end) false [] [] (B"(price * (1 + tax))") true.
Definition a_check (d : dialect) (t n e : bytes) : constraint :=
  Constraint (the_schema d) t n CHECK [] [] [] [] [] [] [] e [] [] [] false false false false false.
Definition deferred (d : dialect) (c : constraint) : constraint :=
  Constraint (con_schema c) (con_table c) (con_name c) (con_type c) (con_columns c) (con_refschema c) (con_reftable c) (con_refcolumns c)
    (B"CASCADE") (match d with SQLServer => B"NO ACTION" | _ => B"RESTRICT" end) [] [] [] [] [] true true false false false.
Definition no_overlap (d : dialect) : list constraint :=
  match d with
  | Postgres => [Constraint (the_schema d) (B"order line") (B"no_overlap") EXCLUDE [B"room"; B"tsrange(a, b)"] [] [] [] [] [] [] []
                   [B"="; B"&&"] (B"gist") (B"NOT deleted") false false false false false]
  | _ => []
  end.
Definition line (d : dialect) : table :=
  a_table (the_schema d) (B"order line")
    [key_column d (B"order line") (B"id");
     some_column d (B"order line") (B"item") (B"VARCHAR(50)") true (match d with SQLServer => [] | _ => B"'it''s'" end) (collation_name d) [] false;
     some_column d (B"order line") (B"price") (B"NUMERIC(8,2)") true (B"0") [] [] false;
     some_column d (B"order line") (B"maker id") (B"INT") false [] [] [] false;
     total_column d]
    ([a_key (the_schema d) (B"order line") (B"line_pkey") PRIMARY_KEY [B"id"];
      a_key (the_schema d) (B"order line") (B"line_key") UNIQUE [B"item"; B"price"];
      a_check d (B"order line") (B"line_check") (B"price >= 0 AND item IN ('a', 'b')");
      deferred d (a_fkey (the_schema d) (B"order line") (B"line_maker_fkey") [B"maker id"] (the_schema d) (B"maker") [B"id"])]
     ++ no_overlap d)
    [Index (the_schema d) (B"order line") (B"line_idx") [] true [B"price"; match d with SQLServer => B"item" | _ => B"(lower(item))" end] (match d with Postgres | SQLServer => [B"maker id"] | _ => [] end)
       [true; false] [] (match d with MySQL => [] | _ => B"price > 1" end) [] false].
Definition maker (d : dialect) (cols : list column) (cons : list constraint) (ixs : list index) : table :=
  a_table (the_schema d) (B"maker") (key_column d (B"maker") (B"id") :: cols)
    (a_key (the_schema d) (B"maker") (B"maker_pkey") PRIMARY_KEY [B"id"] :: cons) ixs.
Definition shop_old (d : dialect) : catalog :=
  one_schema d (the_schema d)
    [maker d [some_column d (B"maker") (B"name") (B"VARCHAR(50)") false [] [] [] false;
              some_column d (B"maker") (B"since") (B"INT") true [] [] [] false]
       [] [an_index (the_schema d) (B"maker") (B"maker_idx") [B"name"]];
     a_table (the_schema d) (B"left over") [key_column d (B"left over") (B"id")] [] []].
Definition shop_new (d : dialect) : catalog :=
  one_schema d (the_schema d)
    [maker d [some_column d (B"maker") (B"name") (B"VARCHAR(100)") false (match d with SQLServer => B"'?'" | _ => [] end) [] [] false;
              some_column d (B"maker") (B"since") (B"INT") (match d with SQLite => true | _ => false end) (match d with SQLite => [] | _ => B"1900" end) [] [] false;
              some_column d (B"maker") (B"first line") (B"INT") false [] [] [] false]
       (match d with SQLite => [] | _ => [a_key (the_schema d) (B"maker") (B"maker_key") UNIQUE [B"since"]] end)
       [an_index (the_schema d) (B"maker") (B"maker_idx2") [B"since"]];
     line d].

(** ** All statements can be written *)
Fixpoint doubled (d : dialect) (n : bytes) : bool :=
  match n with
  | a :: (b :: _ :: _) as r => (ceqb a (id_close d) && ceqb b (id_close d)) || doubled d r
  | _ :: r => doubled d r
  | [] => false
  end.
Lemma doubled_there : forall d a c b, doubled d (a ++ id_close d :: id_close d :: c :: b) = true.
Proof.
  intros d a c b. assert (E : ceqb (id_close d) (id_close d) = true) by (destruct d; reflexivity).
  induction a as [|x a IH]; cbn [app].
  - cbn [doubled]. rewrite E. reflexivity.
  - destruct a as [|y a]; cbn [app] in *; [cbn [doubled]; rewrite E; apply orb_true_r|]. cbn [doubled] in *. destruct (a ++ _) eqn:Z; [destruct a; discriminate Z|]. rewrite IH. apply orb_true_r.
Qed.
Lemma plain_now : forall d n, negb (bmem n (map B ["EXCLUDED"; "INSERTED"; "DELETED"; "NEW"; "OLD"]%string)) && negb (doubled d n) = true -> plain_name d n.
Proof.
  intros d n H. apply andb_true_iff in H as [H1 H2]. apply negb_true_iff in H1, H2. split.
  - intros I. apply bmem_In in I. rewrite I in H1. discriminate H1.
  - intros (a & c & b & ->). rewrite doubled_there in H2. discriminate H2.
Qed.

Section Decide.
Context (d : dialect) (cur coll : bytes) (ref : column -> reference).
Definition plainb (n : bytes) : bool := negb (bmem n (map B ["EXCLUDED"; "INSERTED"; "DELETED"; "NEW"; "OLD"]%string)) && negb (doubled d n).
Definition plainsb (l : list bytes) : bool := negb (none l) && forallb plainb l.
Definition tableb (q : qname) : bool := plainb (fst q) && plainb (snd q).
Definition fitsb (stop : list bytes) (s : bytes) : bool :=
  match tokens d s with Some (t :: ts) => whole stop 0 (t :: ts) | _ => false end.
Definition operandb (stop : list bytes) (s : bytes) : bool :=
  match tokens d s with Some (t :: ts) => negb (ends_run [] t) && whole stop (deeper 0 t) ts | _ => false end.
Definition closed (ts : toks) : bool := match parens expression ts with Some (_, []) => true | _ => false end.
Definition bracketedb (s : bytes) : bool :=
  if is_expression s then match tokens d s with Some ts => closed ts | None => false end
  else fitsb [] s && negb (closed (text d s)).
Definition typeb (c : column) : bool :=
  match col_domain c, col_type c with
  | [], [] => true
  | [], ty => fitsb clauses ty && begins_type (text d ty) && (col_enum c || forallb plain_token (text d ty))
  | dm, _ => fitsb clauses dm && begins_type (text d dm)
  end.
Definition raw_nameb (n : bytes) : bool :=
  match tokens d n with Some [t] => match name_token d t with Some m => beqb m n | None => false end | _ => false end.
Definition raw_wordb (n : bytes) : bool := match tokens d n with Some [Word w] => beqb w n && raw_nameb n | _ => false end.
Definition identityb (s : bytes) : bool :=
  is_empty s || match tokens d s with
                | Some ts => match read_identity d ts with Some (i, []) => whole clauses 0 (id_options i) | _ => false end
                | None => false
                end.
Definition ruleb (s : bytes) : bool := bmem s (map B [""; "NO ACTION"; "RESTRICT"; "CASCADE"; "SET NULL"; "SET DEFAULT"]%string).
Definition referenceb (r : reference) : bool :=
  plainb (rf_schema r) && plainb (rf_table r) && plainb (rf_column r) && ruleb (rf_update r) && ruleb (rf_delete r).
Definition columnb (level : bool) (r : reference) (c : column) : bool :=
  plainb (col_name c) && typeb c
  && match d with Postgres | SQLServer => identityb (col_identity c) | _ => true end
  && (is_empty (col_default c) || operandb clauses (col_default c))
  && (is_empty (col_collation c) || beqb (col_collation c) coll
      || match d with Postgres => plainb (col_collation c) | SQLServer => raw_nameb (col_collation c) && is_empty (col_default c) | _ => raw_nameb (col_collation c) end)
  && (is_empty (col_expr c)
      || bracketedb (col_expr c)
         && match d with
            | MySQL => negb (col_autoincrement c) && negb (col_notnull c) && is_empty (col_default c) && negb (col_onupdate c)
            | SQLServer => is_empty (col_identity c) && is_empty (col_default c) && is_empty (col_collation c) && is_empty (col_domain c) && negb (col_enum c)
            | _ => col_stored c
            end)
  && (negb level || is d SQLite && referenceb r).
Definition constraintb (c : constraint) : bool :=
  plainb (con_name c)
  && bmem (con_type c) (map B ["PRIMARY KEY"; "UNIQUE"; "CHECK"; "FOREIGN KEY"; "EXCLUDE"]%string)
  && (beqb (con_type c) CHECK || beqb (con_type c) EXCLUDE || plainsb (con_columns c))
  && (negb (beqb (con_type c) CHECK) || fitsb [] (con_check c))
  && (negb (beqb (con_type c) FOREIGN_KEY)
      || plainb (con_refschema c) && plainb (con_reftable c) && plainsb (con_refcolumns c) && ruleb (con_update c) && ruleb (con_delete c)
         && negb (beqb (con_match c) (B"MATCH FULL")) && (negb (is d MySQL) || negb (is_empty cur) && plainb cur))
  && (negb (beqb (con_type c) EXCLUDE)
      || is d Postgres && negb (none (con_columns c)) && (is_empty (con_indextype c) || raw_wordb (con_indextype c))
         && forallb (fitsb [B"WITH"]) (con_columns c) && forallb (fitsb []) (con_operators c)
         && (List.length (con_operators c) =? List.length (con_columns c)) && (is_empty (con_predicate c) || fitsb [] (con_predicate c))).
Definition indexb (x : index) : bool :=
  plainb (ix_name x)
  && match d with
     | SQLServer => bmem (to_upper (ix_type x)) [[]; B"NONCLUSTERED"]
     | MySQL => negb (beqb (to_upper (ix_name x)) (B"SPATIAL"))
                && (bmem (to_upper (ix_type x)) [[]; B"BTREE"] || beqb (to_upper (ix_type x)) (B"FULLTEXT") && negb (ix_unique x))
     | Postgres => is_empty (ix_type x) || raw_wordb (ix_type x)
     | _ => true
     end
  && negb (none (ix_columns x)) && forallb (fun n => if is_expression n then bracketedb n else plainb n) (ix_columns x)
  && (negb (is d Postgres) || forallb is_empty (ix_opclasses x)) && forallb plainb (ix_include x)
  && (is_empty (ix_predicate x) || fitsb [] (ix_predicate x)) && is_empty (ix_sql x).
Definition tabledefb (t : table) : bool :=
  is_empty (tb_sql t) && plainb (tb_schema t) && plainb (tb_name t) && negb (none (table_columns t))
  && forallb (columnb false no_reference) (table_columns t) && forallb constraintb (table_constraints d t).
Definition qeqb (a b : qname) : bool := beqb (fst a) (fst b) && beqb (snd a) (snd b).
Definition alteredb (n : bytes) : bool := match d with Postgres => raw_wordb n | _ => plainb n end.
Definition writableb (s : stmt) : bool :=
  match s with
  | QDropSchema n => plainb n
  | QCreateSchema n => (is d Postgres || is d MySQL) && plainb n
  | QDropTable q => tableb q
  | QCreateTable q t => qeqb q (qualify cur (tb_schema t) (tb_name t)) && tabledefb t
  | QCopyRows q q' l => tableb q && tableb q' && plainsb l
  | QCreateIndex q x _ => tableb q && qeqb q (qualify cur (ix_schema x) (ix_table x)) && indexb x
  | QDropIndex q n => tableb q && plainb n && (negb (is d SQLite) || is_empty (fst q))
  | QPragma _ => is d SQLite
  | QDropConstraint q c => tableb q && plainb (con_name c)
  | QDropCheck q n => tableb q && plainb n
  | QDropColumn q n => tableb q && plainb n
  | QAddColumn q c => tableb q && columnb (sqlite d) (ref c) c
  | QModifyColumn q c => is d MySQL && tableb q && columnb false no_reference c
  | QSetType q n ty co null =>
      (is d Postgres || is d SQLServer) && tableb q && alteredb n && fitsb clauses ty
      && (is d SQLServer || is_none null)
      && match co with Some s => match d with Postgres => plainb s | _ => raw_wordb s end | None => true end
  | QSetDefault q n e =>
      tableb q && alteredb n
      && match d with Postgres => operandb [] e | SQLServer => operandb [B"FOR"] e | _ => false end
  | QDropDefault q n | QSetNotNull q n | QDropNotNull q n | QDropIdentity q n => is d Postgres && tableb q && alteredb n
  | QAddIdentity q n k => is d Postgres && tableb q && alteredb n && negb (is_empty k) && identityb k
  | QAddCheck q name n => is d Postgres && tableb q && plainb name && alteredb n
  | QAddConstraint q c nv => tableb q && constraintb c && (negb nv || is d Postgres)
  | QAddUsingIndex q c => is d Postgres && tableb q && plainb (con_name c) && bmem (con_type c) [PRIMARY_KEY; UNIQUE]
  | QAlterConstraint q c => is d Postgres && tableb q && plainb (con_name c)
  | QValidate q n => is d Postgres && tableb q && plainb n
  | QRename q n => is d SQLite && tableb q && plainb n
  end.

End Decide.
Section Sound.
Context (d : dialect) (cur coll : bytes) (ref : column -> reference).
Lemma is_eq d' : is d d' = true -> d = d'.
Proof. destruct d, d'; try discriminate; reflexivity. Qed.
Lemma empty_eq (s : bytes) : is_empty s = true -> s = [].
Proof. destruct s; [reflexivity|discriminate]. Qed.
Lemma plainsb_ok l : plainsb d l = true -> plain_names_ d l.
Proof.
  intros H. apply andb_true_iff in H as [H1 H2]. split; [intros ->; discriminate H1|]. intros n I. rewrite forallb_forall in H2. exact (plain_now d n (H2 n I)).
Qed.
Lemma tableb_ok q : tableb d q = true -> plain_table d q.
Proof. intros H. apply andb_true_iff in H as [H1 H2]. split; apply plain_now; assumption. Qed.
Lemma fitsb_ok stop s : fitsb d stop s = true -> fits d stop s.
Proof. unfold fitsb. destruct (tokens d s) as [[|t ts]|] eqn:E; try discriminate. intros H. exists (t :: ts). split; [exact E|]. split; [discriminate|exact H]. Qed.
Lemma operandb_ok stop s : operandb d stop s = true -> fits_operand d stop s.
Proof. unfold operandb. destruct (tokens d s) as [[|t ts]|] eqn:E; try discriminate. intros H. apply andb_true_iff in H as [H1 H2]. apply negb_true_iff in H1. exists t, ts. split; [exact E|]. split; assumption. Qed.
Lemma bracketedb_ok s : bracketedb d s = true -> bracketed d s.
Proof.
  unfold bracketedb, bracketed. destruct (is_expression s).
  - destruct (tokens d s) as [ts|]; [|discriminate]. unfold closed. destruct (parens expression ts) as [[e [|x y]]|] eqn:E; try discriminate. intros _. exists ts, e. split; [reflexivity|exact E].
  - intros H. apply andb_true_iff in H as [H1 H2]. split; [exact (fitsb_ok _ _ H1)|]. unfold inner, closed in *. destruct (parens expression (text d s)) as [[e [|x y]]|]; try reflexivity. discriminate H2.
Qed.
Lemma typeb_ok c : typeb d c = true -> fits_type d c.
Proof.
  unfold typeb, fits_type. destruct (col_domain c) as [|x y]; [destruct (col_type c) as [|x y]; [reflexivity|]|].
  - intros H. apply andb_true_iff in H as [H H3]. apply andb_true_iff in H as [H1 H2]. split; [exact (fitsb_ok _ _ H1)|]. split; [exact H2|]. apply orb_true_iff in H3 as [H3|H3]; [left|right]; assumption.
  - intros H. apply andb_true_iff in H as [H1 H2]. split; [exact (fitsb_ok _ _ H1)|exact H2].
Qed.
Lemma raw_nameb_ok n : raw_nameb d n = true -> raw_name d n.
Proof.
  unfold raw_nameb. destruct (tokens d n) as [[|t [|]]|] eqn:E; try discriminate. destruct (name_token d t) as [m|] eqn:M; [|discriminate]. intros H. apply beqb_eq in H. subst m. exists t. split; assumption.
Qed.
Lemma raw_wordb_ok n : raw_wordb d n = true -> raw_word d n.
Proof.
  unfold raw_wordb. destruct (tokens d n) as [[|[w| | | | |] [|]]|] eqn:E; try discriminate. intros H. apply andb_true_iff in H as [H1 H2]. apply beqb_eq in H1. subst w. destruct (raw_nameb_ok n H2) as (t & T & N). rewrite E in T. injection T as <-. split; assumption.
Qed.
Lemma identityb_ok s : identityb d s = true -> fits_identity d s.
Proof.
  intros H N. apply orb_true_iff in H as [H|H]; [apply empty_eq in H; contradiction|]. destruct (tokens d s) as [ts|]; [|discriminate H]. destruct (read_identity d ts) as [[i [|]]|] eqn:E; try discriminate H. exists ts, i. split; [reflexivity|]. split; assumption.
Qed.
Lemma ruleb_ok s : ruleb s = true -> fits_rule s.
Proof. intros H. apply bmem_In in H. exact H. Qed.
Lemma referenceb_ok r : referenceb d r = true -> writable_reference d r.
Proof. intros H. do 4 (apply andb_true_iff in H as [H ?]). split; [exact (plain_now d _ H)|]. split; [apply plain_now; assumption|]. split; [apply plain_now; assumption|]. split; apply ruleb_ok; assumption. Qed.
Ltac bools H := repeat match type of H with _ && _ = true => let H' := fresh "K" in apply andb_true_iff in H as [H H']; bools H' end.
Lemma columnb_ok level r c : columnb d coll level r c = true -> writable_column d coll level r c.
Proof.
  unfold columnb. intros H. apply andb_true_iff in H as [H H7]. apply andb_true_iff in H as [H H6]. apply andb_true_iff in H as [H H5]. apply andb_true_iff in H as [H H4]. apply andb_true_iff in H as [H H3]. apply andb_true_iff in H as [H1 H2].
  constructor.
  - exact (plain_now d _ H1).
  - exact (typeb_ok c H2).
  - pose proof identityb_ok as X. clear - H3 X. destruct d; try exact I; apply X; exact H3.
  - intros N. apply orb_true_iff in H4 as [H4|H4]; [apply empty_eq in H4; contradiction|exact (operandb_ok _ _ H4)].
  - intros N Nc. apply orb_true_iff in H5 as [H5|H5]; [apply orb_true_iff in H5 as [H5|H5]; [apply empty_eq in H5; contradiction|apply beqb_eq in H5; contradiction]|].
    pose proof raw_nameb_ok as X. clear - H5 X. destruct d; try (apply X; assumption); [exact (plain_now Postgres _ H5)|]. apply andb_true_iff in H5 as [H5 H]. split; [exact (X _ H5)|exact (empty_eq _ H)].
  - intros N. apply orb_true_iff in H6 as [H6|H6]; [apply empty_eq in H6; contradiction|]. apply andb_true_iff in H6 as [H6 H]. split; [exact (bracketedb_ok _ H6)|]. clear - H. destruct d; try exact H; bools H; repeat split; try (apply empty_eq; assumption); apply negb_true_iff; assumption.
  - intros ->. apply andb_true_iff in H7 as [H7 H]. split; [exact (is_eq SQLite H7)|exact (referenceb_ok r H)].
Qed.
Lemma constraintb_ok c : constraintb d cur c = true -> writable_constraint d cur c.
Proof.
  unfold constraintb. intros H. apply andb_true_iff in H as [H H6]. apply andb_true_iff in H as [H H5]. apply andb_true_iff in H as [H H4]. apply andb_true_iff in H as [H H3]. apply andb_true_iff in H as [H1 H2].
  constructor.
  - exact (plain_now d _ H1).
  - apply bmem_In in H2. exact H2.
  - intros N N'. apply orb_true_iff in H3 as [H3|H3]; [apply orb_true_iff in H3 as [H3|H3]; apply beqb_eq in H3; contradiction|exact (plainsb_ok _ H3)].
  - intros E. apply orb_true_iff in H4 as [H4|H4]; [rewrite E in H4; discriminate H4|exact (fitsb_ok _ _ H4)].
  - intros E. apply orb_true_iff in H5 as [H5|H5]; [rewrite E in H5; discriminate H5|]. apply andb_true_iff in H5 as [H5 K7]. apply andb_true_iff in H5 as [H5 K6]. apply andb_true_iff in H5 as [H5 K5]. apply andb_true_iff in H5 as [H5 K4]. apply andb_true_iff in H5 as [H5 K3]. apply andb_true_iff in H5 as [K1 K2].
    split; [exact (plain_now d _ K1)|]. split; [exact (plain_now d _ K2)|]. split; [exact (plainsb_ok _ K3)|]. split; [exact (ruleb_ok _ K4)|]. split; [exact (ruleb_ok _ K5)|]. split; [intros Em; rewrite Em in K6; discriminate K6|].
    intros D. apply orb_true_iff in K7 as [K7|K7]; [rewrite D in K7; discriminate K7|]. apply andb_true_iff in K7 as [K7 K8]. split; [intros Ec; rewrite Ec in K7; discriminate K7|exact (plain_now d _ K8)].
  - intros E. apply orb_true_iff in H6 as [H6|H6]; [rewrite E in H6; discriminate H6|]. apply andb_true_iff in H6 as [H6 K7]. apply andb_true_iff in H6 as [H6 K6]. apply andb_true_iff in H6 as [H6 K5]. apply andb_true_iff in H6 as [H6 K4]. apply andb_true_iff in H6 as [H6 K3]. apply andb_true_iff in H6 as [K1 K2].
    split; [exact (is_eq Postgres K1)|]. split; [intros Ec; rewrite Ec in K2; discriminate K2|]. split.
    { intros N. apply orb_true_iff in K3 as [K3|K3]; [apply empty_eq in K3; contradiction|exact (proj1 (raw_wordb_ok _ K3))]. }
    rewrite forallb_forall in K4, K5. split; [intros n I; exact (fitsb_ok _ _ (K4 n I))|]. split; [intros n I; exact (fitsb_ok _ _ (K5 n I))|]. split; [exact (proj1 (Nat.eqb_eq _ _) K6)|].
    intros N. apply orb_true_iff in K7 as [K7|K7]; [apply empty_eq in K7; contradiction|exact (fitsb_ok _ _ K7)].
Qed.
Lemma indexb_ok x : indexb d x = true -> writable_index d x.
Proof.
  unfold indexb. intros H. apply andb_true_iff in H as [H H9]. apply andb_true_iff in H as [H H8]. apply andb_true_iff in H as [H H7]. apply andb_true_iff in H as [H H6]. apply andb_true_iff in H as [H H5]. apply andb_true_iff in H as [H H4]. apply andb_true_iff in H as [H1 H3].
  constructor.
  - exact (plain_now d _ H1).
  - pose proof raw_wordb_ok as X. clear - H3 X. destruct d; try exact I.
    + intros N. apply orb_true_iff in H3 as [H3|H3]; [apply empty_eq in H3; contradiction|exact (proj1 (X _ H3))].
    + apply andb_true_iff in H3 as [H3 H4]. split; [intros E; rewrite E in H3; discriminate H3|]. apply orb_true_iff in H4 as [H4|H4]; [left; apply bmem_In; exact H4|right]. apply andb_true_iff in H4 as [H4 H5]. split; [apply beqb_eq; exact H4|apply negb_true_iff; exact H5].
    + apply bmem_In. exact H3.
  - intros E. rewrite E in H4. discriminate H4.
  - rewrite forallb_forall in H5. intros n I. specialize (H5 n I). cbv beta in H5. destruct (is_expression n); [exact (bracketedb_ok _ H5)|exact (plain_now d _ H5)].
  - intros D n I. rewrite D in H6. cbn [is dialect_eqb negb orb] in H6. rewrite forallb_forall in H6. exact (empty_eq _ (H6 n I)).
  - rewrite forallb_forall in H7. intros n I. exact (plain_now d _ (H7 n I)).
  - intros N. apply orb_true_iff in H8 as [H8|H8]; [apply empty_eq in H8; contradiction|exact (fitsb_ok _ _ H8)].
  - exact (empty_eq _ H9).
Qed.
Lemma tabledefb_ok t : tabledefb d cur coll t = true -> writable_table d cur coll t.
Proof.
  unfold tabledefb. intros H. apply andb_true_iff in H as [H H6]. apply andb_true_iff in H as [H H5]. apply andb_true_iff in H as [H H4]. apply andb_true_iff in H as [H H3]. apply andb_true_iff in H as [H1 H2].
  rewrite forallb_forall in H5, H6. split; [exact (empty_eq _ H1)|]. split; [exact (plain_now d _ H2)|]. split; [exact (plain_now d _ H3)|]. split; [intros E; rewrite E in H4; discriminate H4|]. split; intros c I; [exact (columnb_ok _ _ _ (H5 c I))|exact (constraintb_ok _ (H6 c I))].
Qed.
Lemma qeqb_ok a b : qeqb a b = true -> a = b.
Proof. intros H. apply andb_true_iff in H as [H1 H2]. apply beqb_eq in H1, H2. destruct a, b. cbn in *. subst. reflexivity. Qed.
Lemma alteredb_ok n : alteredb d n = true -> altered_name d n.
Proof. pose proof raw_wordb_ok as X. unfold alteredb, altered_name. destruct d; try apply plain_now. apply X. Qed.
(** All statements that are found to be writable are. *)
Theorem writable_now s : writableb d cur coll ref s = true -> writable d cur coll ref s.
Proof.
  destruct s; cbn [writableb writable]; intros H; bools H;
    repeat match goal with
    | E : tableb d _ = true |- _ => apply tableb_ok in E
    | E : plainb d _ = true |- _ => apply plain_now in E
    | E : plainsb d _ = true |- _ => apply plainsb_ok in E
    | E : columnb d coll _ _ _ = true |- _ => apply columnb_ok in E
    | E : constraintb d cur _ = true |- _ => apply constraintb_ok in E
    | E : indexb d _ = true |- _ => apply indexb_ok in E
    | E : tabledefb d cur coll _ = true |- _ => apply tabledefb_ok in E
    | E : qeqb _ _ = true |- _ => apply qeqb_ok in E
    | E : alteredb d _ = true |- _ => apply alteredb_ok in E
    | E : is d _ = true |- _ => apply is_eq in E
    | E : identityb d _ = true |- _ => apply identityb_ok in E
    | E : fitsb d _ _ = true |- _ => apply fitsb_ok in E
    end; try tauto.
  - split; [|split; [assumption|]]; apply orb_true_iff in H as [E|E]; apply is_eq in E.
    + rewrite E. unfold SpecDdlText.dialects. cbn [In]. tauto.
    + rewrite E. unfold SpecDdlText.dialects. cbn [In]. tauto.
    + intros D. rewrite D in E. discriminate E.
    + intros D. rewrite D in E. discriminate E.
  - split; [assumption|]. split; [assumption|]. intros D. rewrite D in K. cbn [is dialect_eqb negb orb] in K. exact (empty_eq _ K).
  - split; [|split; [assumption|split; [assumption|split; [assumption|split]]]].
    + apply orb_true_iff in H as [E|E]; apply is_eq in E; rewrite E; unfold SpecDdlText.dialects; cbn [In]; tauto.
    + intros D. rewrite D in K0. destruct null; [discriminate K0|reflexivity].
    + intros s ->. pose proof raw_wordb_ok as X. clear - K X. destruct d; try (apply X; assumption). exact (plain_now Postgres _ K).
  - split; [assumption|]. split; [assumption|]. pose proof operandb_ok as X. clear - K X. destruct d; try discriminate K; apply X; exact K.
  - split; [assumption|]. split; [assumption|]. split; [assumption|]. split; [intros E; rewrite E in K0; discriminate K0|assumption].
  - split; [assumption|]. split; [assumption|]. intros ->. exact (is_eq Postgres K).
  - split; [assumption|]. split; [assumption|]. split; [assumption|]. apply bmem_In. exact K.
Qed.
End Sound.

Definition no_refs (_ : column) : reference := no_reference.
Definition shop (d : dialect) : list file * list warning := got (results d no_float (B"m") (shop_old d) (shop_new d) true).
Lemma shop_writable : forall d, d <> Other -> forall f, In f (fst (shop d)) -> forall s, In s (fl_stmts f) ->
  writable d (current_of d (shop_old d)) (collation_of d (shop_old d)) no_refs s.
Proof.
  intros d D f I s Is. apply writable_now. revert s Is. apply forallb_forall. revert f I. apply (proj1 (forallb_forall (fun f => forallb (writableb d (current_of d (shop_old d)) (collation_of d (shop_old d)) no_refs) (fl_stmts f)) _)).
  destruct d; try contradiction; vm_compute; reflexivity.
Qed.
