(** The file with extensions and types is read as commands. *)
From Coq Require Import Lia ZifyBool ZifyNat.
From Verif Require Import GoStr GoStrFacts ModelSq SpecSql SqFacts SpecInsert SpecTokens TokenFacts TokenReads SpecDdl ModelCatalog ModelCache ModelDdl ModelDiff ModelDiffSql
  ModelDdlText SpecDdlText DdlTokens DdlColumns DdlActions DdlStatements SpecDiff SpecApply ModelDump SpecLoad LoadTexts ModelExtras SpecExtras SpecTypedLoad.
From Verif Require FilterFacts.

(** ** Commands in texts *)
Definition told (s : bytes) (l : list command) : Prop :=
  exists tss ls, CClosed Postgres s (concat tss) /\ Forall2 (fun ts st => ts <> [] /\ forall more, read_command (ts ++ more) = Some (st, more)) tss ls /\ l = concat ls.
Lemma told_nil : told [] [].
Proof. exists [], []. split; [intros b us H; exact H|]. split; [constructor|reflexivity]. Qed.
Lemma told_app s s' l l' : told s l -> told s' l' -> told (s ++ s') (l ++ l').
Proof.
  intros (tss & ls & C & F & ->) (tss' & ls' & C' & F' & ->). exists (tss ++ tss'), (ls ++ ls'). rewrite !concat_app.
  split; [intros b us H; rewrite <- !app_assoc; exact (C _ _ (C' b us H))|]. split; [apply Forall2_app; assumption|reflexivity].
Qed.
Lemma create_other ts z w : read_statement Postgres ts = Some z -> In w [B"EXTENSION"; B"TYPE"; B"DOMAIN"] -> kws [B"CREATE"; w] ts = None.
Proof.
  intros R W. destruct (kws [B"CREATE"; w] ts) as [r|] eqn:K; [exfalso|reflexivity]. cbn [kws] in K.
  destruct (kw (B"CREATE") ts) as [r1|] eqn:K1; [|discriminate K]. cbn [andthen] in K. destruct (kw w r1) as [r2|] eqn:K2; [|discriminate K].
  cbn [read_statement] in R. unfold read_simple in R. rewrite K1 in R.
  apply kw_inv in K1 as (c & -> & Ec). apply kw_inv in K2 as (v & -> & Ev).
  assert (Kd : kw (B"DROP") (Word c :: Word v :: r2) = None) by (cbn [kw]; rewrite Ec; reflexivity). rewrite Kd in R.
  assert (Hv : forall k r3, In k [B"SCHEMA"; B"TABLE"; B"UNIQUE"; B"INDEX"; B"FULLTEXT"; B"SPATIAL"; B"CLUSTERED"; B"NONCLUSTERED"] -> kw k (Word v :: r3) = None).
  { intros k r3 Hk. cbn [kw]. rewrite Ev. cbn [In] in W, Hk. intuition (subst; reflexivity). }
  unfold read_create in R. rewrite !Hv in R by (cbn; tauto). unfold read_index in R. cbn [kws] in R. unfold has in R. cbn [kws] in R.
  rewrite (Hv (B"UNIQUE") r2 ltac:(cbn [In]; tauto)) in R. cbn [andthen] in R. unfold maybe at 1, read_kind in R. cbn beta iota in R.
  rewrite (Hv (B"INDEX") r2 ltac:(cbn [In]; tauto)) in R. discriminate R.
Qed.
Lemma told_noted s l : noted Postgres s l -> told s (map IStatement l).
Proof.
  intros (tss & ls & C & F & ->). exists tss, (map (map IStatement) ls). split; [exact C|]. split; [|apply concat_map].
  clear C. induction F as [|ts st tss ls [N R] F IH]; cbn [map]; constructor; [|exact IH]. split; [exact N|]. intros more. unfold read_command.
  rewrite (create_other _ _ (B"EXTENSION") (R more)), (create_other _ _ (B"TYPE") (R more)), (create_other _ _ (B"DOMAIN") (R more)) by (cbn; tauto).
  rewrite (R more). reflexivity.
Qed.
Lemma told_read s l : told s l -> command_file s = Some l.
Proof.
  intros (tss & ls & C & F & ->). specialize (C [] [] (clexed_nil Postgres)). rewrite !app_nil_r in C. apply clexed_tokens in C. unfold command_file. rewrite C. cbn [andthen].
  assert (Ln : List.length tss <= List.length (concat tss)).
  { clear C. induction F as [|ts st tss ls [N _] F IH]; [cbn; lia|]. cbn [concat List.length]. rewrite app_length. destruct ts; [congruence|]. cbn [List.length]. lia. }
  revert Ln. generalize (List.length (concat tss)). clear C. induction F as [|ts st tss ls [N R] F IH]; intros n Ln; [destruct n; reflexivity|].
  cbn [concat List.length] in *. destruct n as [|n]; [lia|]. destruct ts as [|t ts]; [congruence|]. cbn [app read_commands]. specialize (R (concat tss)). cbn [app] in R. unfold toks in *. rewrite R. cbn [andthen]. rewrite (IH n ltac:(lia)). reflexivity.
Qed.
Lemma told_put buf s l l' : told buf l -> told s l' -> told (put_text buf s) (l ++ l').
Proof.
  intros H H'. unfold put_text. apply (told_app _ _ _ _ H). change l' with ([] ++ l'). apply told_app; [|exact H'].
  unfold opt. destruct (given buf); [exact (told_noted _ _ (noted_scripted _ _ _ (scripted_blank Postgres)))|apply told_nil].
Qed.
Lemma told_texts l ls : Forall2 told l ls -> told (put_texts l) (concat ls).
Proof.
  intros F. unfold put_texts. assert (G : forall buf m, told buf m -> told (fold_left put_text l buf) (m ++ concat ls)).
  { induction F as [|s m' l ls H F IH]; intros buf m Hb; cbn [fold_left concat]; [rewrite app_nil_r; exact Hb|]. rewrite app_assoc. apply IH. apply told_put; assumption. }
  exact (G [] [] told_nil).
Qed.
Lemma told_closed s t ts l : Closed Postgres s (t :: ts) -> (forall more, read_command (t :: ts ++ more) = Some (l, more)) -> told s l.
Proof.
  intros C R. exists [t :: ts], [l]. cbn [concat]. rewrite !app_nil_r. split; [intros b us H; exact (lexed_clexed Postgres _ _ b us (C b) H)|]. split; [|reflexivity].
  constructor; [|constructor]. split; [discriminate|exact R].
Qed.

(** ** Extensions *)
Lemma told_extension n : plain_name Postgres n -> told (extension_text Postgres n) [IExtension n].
Proof.
  intros P. unfold extension_text. apply (told_closed _ (Word (B"CREATE")) ([Word (B"EXTENSION"); Word (B"IF"); Word (B"NOT"); Word (B"EXISTS")] ++ [ntok Postgres n] ++ [Sym ";"])).
  - exact (closed_fixed Postgres (B"CREATE EXTENSION IF NOT EXISTS ") _ [_; _; _; _; _] _ ltac:(fix_text) (closed_end Postgres _ _ (lex_name Postgres n))).
  - intros more. cbn [app]. match goal with |- read_command (_ :: _ :: _ :: _ :: _ :: ?z) = _ =>
      change (read_command (Word (B"CREATE") :: Word (B"EXTENSION") :: Word (B"IF") :: Word (B"NOT") :: Word (B"EXISTS") :: z))
      with (let? (n, r) := name Postgres z in let? r := sym ";" r in Some ([IExtension n], r)) end.
    rewrite (read_name _ n _ P). reflexivity.
Qed.

(** ** Enums *)
Lemma type_path cur s n more : plain_name Postgres s -> plain_name Postgres n -> sym "." more = None ->
  path Postgres (qtoks Postgres (qualify cur s n) ++ more) = Some (path_of (qualify cur s n), more).
Proof. intros P1 P2 M. apply read_path; [apply qualify_plain; assumption|exact M]. Qed.
Definition label_toks (l : list bytes) : toks := commas (map (fun s => [Str s]) l).
Lemma lex_labels l : (forall s, In s l -> plain_label s) -> Lex Postgres (join (B", ") (map (fun l => [squote] ++ escape_quote squote l ++ [squote]) l)) (label_toks l).
Proof.
  intros H. apply lex_join. induction l as [|s l IH]; [constructor|]. cbn [map]. constructor; [|apply IH; intros x Hx; apply H; right; exact Hx].
  pose proof (FilterFacts.lex_literal Postgres s ltac:(discriminate)) as L. rewrite (proj2 (collapse_id_iff squote s) (H s (or_introl eq_refl))) in L. exact L.
Qed.
Lemma labels_read l more : l <> [] -> read_labels (Sym "(" :: label_toks l ++ Sym ")" :: more) = Some (l, more).
Proof.
  intros N. unfold read_labels. cbn [sym]. change (ceqb "(" "(") with true. cbv iota. cbn [andthen].
  assert (sym ")" (label_toks l ++ Sym ")" :: more) = None) as E by (destruct l as [|a [|b l]]; [congruence|reflexivity|reflexivity]). unfold toks in *. rewrite E.
  unfold label_toks. rewrite (tlist_commas read_label (fun _ => True) (map (fun s => [Str s]) l) l).
  - reflexivity.
  - destruct l; [congruence|discriminate].
  - clear. induction l as [|s l IH]; [constructor|]. cbn [map]. constructor; [|exact IH]. intros m _. reflexivity.
  - auto.
  - exact Logic.I.
  - reflexivity.
Qed.
Lemma told_enum cat s e : plain_name Postgres s -> plain_name Postgres (en_name e) -> en_labels e <> [] -> (forall x, In x (en_labels e) -> plain_label x) ->
  told (enum_text Postgres cat s e) [IType (path_of (qualify (ct_current cat) s (en_name e))) (DEnum (en_labels e))].
Proof.
  intros P1 P2 N L. unfold enum_text, type_name. set (q := qualify (ModelDump.cur cat) s (en_name e)).
  apply (told_closed _ (Word (B"CREATE")) ([Word (B"TYPE")] ++ qtoks Postgres q ++ [Word (B"AS"); Word (B"ENUM"); Sym "("] ++ label_toks (en_labels e) ++ [Sym ")"; Sym ";"])).
  - apply (closed_fixed Postgres (B"CREATE TYPE ") _ [_; _] _ ltac:(fix_text)). apply (closed_lex Postgres _ _ _ _ (lex_qname Postgres q)); [ending|discriminate|].
    apply (closed_fixed Postgres (B" AS ENUM (") _ [_; _; _] _ ltac:(fix_text)). apply (closed_lex Postgres _ _ _ _ (lex_labels _ L)); [ending|discriminate|].
    exact (fixed_closed Postgres (B");" ++ NL) [_; _] ltac:(fix_text)).
  - intros more. cbn [app]. rewrite <- !app_assoc. cbn [app]. rewrite <- !app_assoc. cbn [app]. match goal with |- read_command (_ :: _ :: ?z) = _ => change (read_command (Word (B"CREATE") :: Word (B"TYPE") :: z))
      with (let? (p, r) := path Postgres z in let? r := kws [B"AS"; B"ENUM"] r in let? (l, r) := read_labels r in let? r := sym ";" r in Some ([IType p (DEnum l)], r)) end.
    unfold q at 1. rewrite type_path by (try assumption; reflexivity). cbn [andthen]. kws_step. rewrite labels_read by exact N. reflexivity.
Qed.

(** ** Domains *)
(** What may follow a clause. *)
Definition reads_clause (ts : toks) (c : domain_clause) : Prop :=
  (exists w r, ts = Word w :: r /\ is_word clauses (Word w) = true) /\ forall more, stops clauses more -> read_domain_clause (ts ++ more) = Some (c, more).
Definition add_all (o : option domain_def) (l : list domain_clause) : option domain_def := fold_left (fun o c => let? x := o in add_domain_clause x c) l o.
Lemma add_none l : add_all None l = None.
Proof. induction l as [|c l IH]; [reflexivity|exact IH]. Qed.
Lemma clause_stops tss cs more : Forall2 reads_clause tss cs -> stops clauses (concat tss ++ Sym ";" :: more).
Proof. intros H. destruct H as [|ts c tss cs ((w & r & -> & W) & _) H]; [reflexivity|]. cbn [concat app stops]. unfold ends_run. rewrite W. reflexivity. Qed.
Lemma read_clauses_all tss cs o : Forall2 reads_clause tss cs -> forall n o' more, List.length tss <= n -> add_all (Some o) cs = Some o' ->
  read_domain_clauses n o (concat tss ++ Sym ";" :: more) = Some (o', Sym ";" :: more).
Proof.
  intros H. revert o. induction H as [|ts c tss cs Hc H IH]; intros o n o' more Ln A.
  - cbn in A. injection A as ->. destruct n; reflexivity.
  - cbn [add_all fold_left andthen] in A. destruct (add_domain_clause o c) as [o1|] eqn:E; [|pose proof (add_none cs) as Z; unfold add_all in Z; rewrite Z in A; discriminate A].
    destruct Hc as ((w & r & -> & W) & R). cbn [concat List.length] in *. destruct n as [|n]; [lia|]. rewrite <- app_assoc.
    specialize (R (concat tss ++ Sym ";" :: more) (clause_stops tss cs more H)). cbn [app read_domain_clauses at_end is_sym orb] in *. unfold toks in *. rewrite R. cbn [andthen]. rewrite E. cbn [andthen].
    apply IH; [lia|exact A].
Qed.

Lemma reads_notnull : reads_clause [Word (B"NOT"); Word (B"NULL")] MNotNull.
Proof. split; [exists (B"NOT"), [Word (B"NULL")]; split; reflexivity|]. intros more _. reflexivity. Qed.
Lemma reads_collate n : reads_clause [Word (B"COLLATE"); Quoted n] (MCollate n).
Proof. split; [exists (B"COLLATE"), [Quoted n]; split; reflexivity|]. intros more _. reflexivity. Qed.
Lemma reads_default e : fits_operand Postgres clauses e -> reads_clause (Word (B"DEFAULT") :: text Postgres e) (MDefault (text Postgres e)).
Proof.
  intros (t & ts & T & E & W). unfold text. rewrite T. split; [exists (B"DEFAULT"), (t :: ts); split; reflexivity|]. intros more M. cbn [app].
  match goal with |- read_domain_clause (_ :: ?z) = _ => change (read_domain_clause (Word (B"DEFAULT") :: z)) with (let? (e, r) := operand clauses z in Some (MDefault e, r)) end.
  rewrite (operand_whole clauses t ts more E W M). reflexivity.
Qed.
Definition check_toks (c : bytes * bytes * bool) : toks :=
  let '(n, e, _) := c in [Word (B"CONSTRAINT"); ntok Postgres n; Word (B"CHECK"); Sym "("] ++ text Postgres e ++ [Sym ")"].
Definition check_clause (c : bytes * bytes * bool) : domain_clause := let '(n, e, _) := c in MCheck (Some n) (text Postgres e).
Lemma reads_check n e v : plain_name Postgres n -> SpecDdlText.fits Postgres [] e -> reads_clause (check_toks (n, e, v)) (check_clause (n, e, v)).
Proof.
  intros P F. destruct (fits_text _ _ _ F) as (_ & N & W). split; [eexists; eexists; split; reflexivity|]. intros more _. cbn [check_toks check_clause app]. rewrite <- app_assoc. cbn [app].
  match goal with |- read_domain_clause (_ :: ?z) = _ => change (read_domain_clause (Word (B"CONSTRAINT") :: z)) with (let? (n, r) := name Postgres z in read_check (Some n) r) end.
  rewrite (read_name _ n _ P). cbn [andthen]. unfold read_check. kw_step. rewrite (parens_whole _ more W N). reflexivity.
Qed.

(** The text of the checks. *)
Lemma wrapped e : wrap_brackets (B"(" ++ e ++ B")") = B"(" ++ e ++ B")".
Proof.
  unfold wrap_brackets. cbn [app B]. assert (wrapped_in_brackets ("("%char :: e ++ [")"%char]) = true) as E; [|exact (f_equal (fun b : bool => if b then _ else _) E)].
  unfold wrapped_in_brackets. cbn [hd_error]. assert (last_byte ("("%char :: e ++ [")"%char]) = Some ")"%char) as ->; [|reflexivity].
  unfold last_byte. rewrite app_comm_cons, rev_app_distr. reflexivity.
Qed.
Lemma piece_checks l : (forall n e v, In (n, e, v) l -> n <> [] /\ plain_name Postgres n /\ SpecDdlText.fits Postgres [] e) ->
  Piece Postgres (check_texts Postgres (map (fun c => fst (fst c)) l) (map (fun c => B"(" ++ snd (fst c) ++ B")") l)) (concat (map check_toks l)).
Proof.
  induction l as [|[[n e] v] l IH]; intros H; [apply piece_nil|]. cbn [map check_texts concat hd tl fst snd]. destruct (H n e v (or_introl eq_refl)) as (Nn & P & F).
  assert (given n = true) as -> by (destruct n; [congruence|reflexivity]). cbn [opt]. rewrite wrapped. destruct (fits_text _ _ _ F) as (L & _ & _).
  specialize (IH (fun n e v X => H n e v (or_intror X))).
  match goal with |- Piece _ ((B" CONSTRAINT " ++ ?q) ++ B" CHECK " ++ ?w ++ ?r) _ => replace ((B" CONSTRAINT " ++ q) ++ B" CHECK " ++ w ++ r) with ((B" CONSTRAINT " ++ (q ++ (B" CHECK (" ++ (e ++ B")")))) ++ r) end.
  2:{ rewrite <- !app_assoc. reflexivity. }
  apply (piece_app Postgres _ _ _ _); [|exact IH]. cbn [check_toks].
  apply (piece_fixed Postgres (B" CONSTRAINT ") _ [_] _ ltac:(fix_text)); [discriminate|ending|].
  apply (lex_app Postgres _ _ [_] _ (lex_name _ _)); [|ending].
  apply (lex_fixed Postgres (B" CHECK (") _ [_; _] _ ltac:(fix_text)). apply (lex_app Postgres _ _ _ _ L); [|ending]. lex_now.
Qed.
Lemma lex_dquoted n : Lex Postgres ([dquote] ++ escape_quote dquote n ++ [dquote]) [Quoted (collapse dquote n)].
Proof.
  apply lexed_step. unfold lex_one. cbn [app]. change (is_space dquote) with false. change (ceqb dquote squote) with false. change (ceqb dquote (id_open Postgres)) with true. cbv iota.
  change (id_close Postgres) with dquote. rewrite (lex_escape dquote n []) by discriminate. reflexivity.
Qed.

(** ** A domain *)
Definition read_as (o : live_domain) : domain :=
  Domain (ld_name o) (ld_type o) (ld_collation o) (ld_notnull o) (ld_default o) (map (fun c => fst (fst c)) (ld_checks o)) (map (fun c => B"(" ++ snd (fst c) ++ B")") (ld_checks o)).
Definition with_collation (coll : bytes) (o : live_domain) : bool := given (ld_collation o) && negb (beqb (ld_collation o) coll).
Definition domain_clauses (coll : bytes) (o : live_domain) : list (toks * domain_clause) :=
  (if ld_notnull o then [([Word (B"NOT"); Word (B"NULL")], MNotNull)] else [])
  ++ (if with_collation coll o then [([Word (B"COLLATE"); Quoted (ld_collation o)], MCollate (ld_collation o))] else [])
  ++ (if given (ld_default o) then [(Word (B"DEFAULT") :: text Postgres (ld_default o), MDefault (text Postgres (ld_default o)))] else [])
  ++ map (fun c => (check_toks c, check_clause c)) (ld_checks o).
Lemma Forall2_pairs {A C} (P : A -> C -> Prop) l : (forall a c, In (a, c) l -> P a c) -> Forall2 P (map fst l) (map snd l).
Proof. induction l as [|[a c] l IH]; intros H; cbn [map fst snd]; constructor; [apply H; left; reflexivity|]. apply IH. intros a' c' I. apply H. right. exact I. Qed.
Lemma domain_reads coll o : writable_domain coll o -> Forall2 reads_clause (map fst (domain_clauses coll o)) (map snd (domain_clauses coll o)).
Proof.
  intros W. apply Forall2_pairs. intros ts c H. unfold domain_clauses in H. apply in_app_or in H as [H|H]; [destruct (ld_notnull o); [destruct H as [[= <- <-]|[]]; exact reads_notnull|destruct H]|].
  apply in_app_or in H as [H|H]; [destruct (with_collation coll o); [destruct H as [[= <- <-]|[]]; apply reads_collate|destruct H]|].
  apply in_app_or in H as [H|H].
  - destruct (given (ld_default o)) eqn:G; [|destruct H]. destruct H as [[= <- <-]|[]]. apply reads_default. apply (wd_default _ _ W). destruct (ld_default o); discriminate.
  - apply in_map_iff in H as ([[n e] v] & [= <- <-] & H). destruct (wd_checks _ _ W n e v H) as (_ & P & F). exact (reads_check n e v P F).
Qed.
Lemma add_checks l : forall o, (forall c, In c l -> snd c = true) ->
  add_all (Some o) (map check_clause l) = Some (DomainDef (dd_type o) (dd_notnull o) (dd_collation o) (dd_default o) (dd_checks o ++ map (fun '(n, e, valid) => (Some n, text Postgres e, valid)) l)).
Proof.
  induction l as [|[[n e] v] l IH]; intros o H; [destruct o; cbn; rewrite app_nil_r; reflexivity|]. cbn [map check_clause add_all fold_left andthen]. destruct o as [ty nn co df ks]. cbn [add_domain_clause].
  pose proof (H _ (or_introl eq_refl)) as Hv. cbn [snd] in Hv. subst v.
  pose proof (IH (DomainDef ty nn co df (ks ++ [(Some n, text Postgres e, true)])) (fun c X => H c (or_intror X))) as E. unfold add_all in E. rewrite E. cbn [dd_type dd_notnull dd_collation dd_default dd_checks]. rewrite <- app_assoc. reflexivity.
Qed.
Lemma add_app l l' o : add_all o (l ++ l') = add_all (add_all o l) l'.
Proof. apply fold_left_app. Qed.
Lemma domain_adds coll o : (forall c, In c (ld_checks o) -> snd c = true) ->
  add_all (Some (DomainDef (map up (text Postgres (ld_type o))) false None None [])) (map snd (domain_clauses coll o)) = Some (domain_meant coll o).
Proof.
  intros V. unfold domain_clauses. rewrite !map_app, !add_app, map_map. cbn [snd]. rewrite (map_ext _ check_clause) by reflexivity. unfold domain_meant, with_collation, if_given.
  destruct (ld_notnull o), (ld_collation o) as [|c0 cn], (ld_default o) as [|x e]; cbn [given is_empty negb andb map snd];
    try (destruct (beqb (c0 :: cn) coll); cbn [negb map snd]); cbn [add_all fold_left andthen add_domain_clause];
    try (destruct (beqb [] coll)); exact (add_checks _ _ V).
Qed.
Lemma domain_lex cat o : writable_domain (ct_collation cat) o ->
  Piece Postgres (opt (dm_notnull (read_as o)) (B" NOT NULL")
    ++ opt (given (dm_collation (read_as o)) && negb (beqb (dm_collation (read_as o)) (ct_collation cat))) (B" COLLATE " ++ [dquote] ++ escape_quote dquote (dm_collation (read_as o)) ++ [dquote])
    ++ opt (given (dm_default (read_as o))) (B" DEFAULT " ++ dm_default (read_as o))
    ++ check_texts Postgres (dm_checknames (read_as o)) (dm_checks (read_as o))) (concat (map fst (domain_clauses (ct_collation cat) o))).
Proof.
  intros W. unfold domain_clauses. rewrite !map_app, !concat_app, map_map. cbn [fst]. rewrite (map_ext _ check_toks) by reflexivity. cbn [read_as dm_notnull dm_collation dm_default dm_checknames dm_checks].
  fold (with_collation (ct_collation cat) o). apply piece_app; [|apply piece_app; [|apply piece_app]].
  - destruct (ld_notnull o); [|apply piece_nil]. cbn [opt map fst concat app]. piece_now.
  - destruct (with_collation (ct_collation cat) o) eqn:C; [|apply piece_nil]. cbn [opt map fst concat]. rewrite app_nil_r.
    apply (piece_fixed Postgres (B" COLLATE ") _ [_] [_] ltac:(fix_text)); [discriminate|ending|]. unfold with_collation in C. apply andb_true_iff in C as [C1 C2].
    pose proof (lex_dquoted (ld_collation o)) as L. rewrite (proj2 (collapse_id_iff dquote (ld_collation o))) in L; [exact L|].
    apply (proj2 (wd_collation _ _ W ltac:(destruct (ld_collation o); discriminate) ltac:(intros E; rewrite E, beqb_refl in C2; discriminate C2))).
  - destruct (given (ld_default o)) eqn:G; [|apply piece_nil]. cbn [opt map fst concat]. rewrite app_nil_r.
    apply (piece_fixed Postgres (B" DEFAULT ") _ [_] _ ltac:(fix_text)); [discriminate|ending|].
    destruct (wd_default _ _ W ltac:(destruct (ld_default o); discriminate)) as (t & ts & T & _). exact (proj1 (lex_text _ _ _ T)).
  - apply piece_checks. exact (wd_checks _ _ W).
Qed.
Lemma told_domain cat s o : plain_name Postgres s -> writable_domain (ct_collation cat) o -> (forall c, In c (ld_checks o) -> snd c = true) ->
  told (domain_text Postgres cat s (read_as o)) [IType (path_of (qualify (ct_current cat) s (ld_name o))) (DDomain (domain_meant (ct_collation cat) o))].
Proof.
  intros P W V. unfold domain_text, type_name. set (q := qualify (ModelDump.cur cat) s (dm_name (read_as o))).
  destruct (fits_text _ _ _ (wd_typed _ _ W)) as (L & N & Wh). set (tss := map fst (domain_clauses (ct_collation cat) o)).
  apply (told_closed _ (Word (B"CREATE")) ([Word (B"DOMAIN")] ++ qtoks Postgres q ++ [Word (B"AS")] ++ (text Postgres (ld_type o) ++ concat tss) ++ [Sym ";"])).
  - apply (closed_fixed Postgres (B"CREATE DOMAIN ") _ [_; _] _ ltac:(fix_text)). apply (closed_lex Postgres _ _ _ _ (lex_qname Postgres q)); [ending|discriminate|].
    apply (closed_fixed Postgres (B" AS ") _ [_] _ ltac:(fix_text)). pose proof (closed_end Postgres _ _ (piece_after _ _ _ _ _ L (domain_lex cat o W))) as C. repeat rewrite <- (@app_assoc ascii) in C. exact C.
  - intros more. cbn [app]. rewrite <- !app_assoc. cbn [app]. rewrite <- !app_assoc. cbn [app]. match goal with |- read_command (_ :: _ :: ?z) = _ => change (read_command (Word (B"CREATE") :: Word (B"DOMAIN") :: z))
      with (let? (p, r) := path Postgres z in let? r := kw (B"AS") r in let? (o, r) := read_domain r in let? r := sym ";" r in Some ([IType p (DDomain o)], r)) end.
    unfold q at 1. rewrite type_path by (try exact P; try exact (proj2 (wd_name _ _ W)); reflexivity). cbn [andthen]. kw_step. unfold read_domain.
    pose proof (domain_reads _ _ W) as R. fold tss in R. rewrite (some_run_whole clauses _ _ Wh N (clause_stops _ _ more R)). cbn [andthen].
    rewrite (read_clauses_all tss _ _ R _ _ more) with (2 := domain_adds (ct_collation cat) o V); [reflexivity|].
    rewrite app_length. assert (Len : List.length tss <= List.length (concat tss)); [|lia].
    clear - R. induction R as [|ts c tss cs ((w & r & -> & _) & _) R IH]; [cbn; lia|]. cbn [concat List.length]. rewrite app_length. cbn [List.length]. lia.
Qed.
