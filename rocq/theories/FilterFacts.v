(** Facts about the conditions that come from the filter. *)
From Verif Require Import GoStr GoStrFacts ModelSq SpecSql SqFacts SpecInsert SpecTokens TokenFacts TokenReads DdlTokens ModelIntrospect ModelFilter SpecFilter HistoryFacts.
From Coq Require Import ZifyBool ZifyNat.

(** ** Strings *)
Lemma lex_escape_bs s rest : ~ In backslash s -> hd_error rest <> Some squote ->
  lex_quoted_bs squote (escape_quote squote s ++ squote :: rest) = Some (collapse squote s, rest).
Proof.
  intros N Hr. revert N. induction s as [s IH] using list_len_ind.
  destruct (escape_cases squote s) as [->|[(x & s' & -> & Hx & -> & ->)|[(c & s'' & -> & -> & ->)|(s' & -> & _ & -> & ->)]]]; intros N.
  - cbn. destruct rest as [|c rest]; [reflexivity|]. destruct (ceqb_spec c squote) as [->|Hn]; [exfalso; apply Hr; reflexivity|reflexivity].
  - cbn [app lex_quoted_bs]. destruct (ceqb_spec x backslash) as [->|_]; [exfalso; apply N; left; reflexivity|]. apply ceqb_neq in Hx. rewrite Hx.
    rewrite (IH s') by first [cbn [List.length]; lia|intros I; apply N; right; exact I]. reflexivity.
  - cbn [app lex_quoted_bs]. change (ceqb squote backslash) with false. rewrite ceqb_refl. cbv iota.
    rewrite (IH (c :: s'')) by first [cbn [List.length]; lia|intros I; apply N; right; right; exact I]. reflexivity.
  - cbn [app lex_quoted_bs]. change (ceqb squote backslash) with false. rewrite ceqb_refl. cbv iota.
    rewrite (IH s') by first [cbn [List.length]; lia|intros I; apply N; right; exact I]. reflexivity.
Qed.
Lemma lex_literal d n : (d = MySQL -> ~ In backslash n) -> Lex d (B"'" ++ escape_quote squote n ++ B"'") [Str (collapse squote n)].
Proof.
  intros N. apply lexed_step. change (B"'" ++ escape_quote squote n ++ B"'") with (squote :: escape_quote squote n ++ squote :: []).
  unfold lex_one. change (is_space squote) with false. rewrite ceqb_refl. cbv iota. unfold lex_strlit. change "'"%char with squote.
  destruct d; try (rewrite (lex_escape squote n [] ltac:(discriminate)); reflexivity).
  rewrite (lex_escape_bs n [] (N eq_refl) ltac:(discriminate)). reflexivity.
Qed.

(** ** The list *)
Definition literal (n : bytes) : bytes := B"'" ++ escape_quote squote n ++ B"'".
Lemma loop_true l : mklist_loop true l = flat_map (fun n => B", " ++ literal n) (some_names l).
Proof.
  induction l as [|n l IH]; [reflexivity|]. cbn [mklist_loop]. unfold some_names in *. cbn [filter]. destruct (beqb n []); [exact IH|]. cbn [negb flat_map]. rewrite IH. unfold literal. rewrite <- !app_assoc. reflexivity.
Qed.
Lemma join_flat (x : bytes) l : join (B", ") (x :: l) = x ++ flat_map (fun y => B", " ++ y) l.
Proof.
  revert x. induction l as [|y l IH]; intros x; [cbn; rewrite app_nil_r; reflexivity|]. rewrite join_cons by discriminate. rewrite IH. cbn [flat_map]. rewrite <- !app_assoc. reflexivity.
Qed.
Lemma flat_map_map {A C D} (f : A -> C) (g : C -> list D) l : flat_map g (map f l) = flat_map (fun x => g (f x)) l.
Proof. induction l as [|x l IH]; [reflexivity|]. cbn. rewrite IH. reflexivity. Qed.
Lemma mklist_join l : mklist l = join (B", ") (map literal (some_names l)).
Proof.
  unfold mklist. induction l as [|n l IH]; [reflexivity|]. cbn [mklist_loop]. destruct (beqb n []) eqn:E.
  - unfold some_names in *. cbn [filter]. rewrite E. exact IH.
  - assert (some_names (n :: l) = n :: some_names l) as -> by (unfold some_names; cbn [filter]; rewrite E; reflexivity).
    rewrite loop_true. cbn [map]. rewrite join_flat, flat_map_map. unfold literal at 2. rewrite <- !app_assoc. reflexivity.
Qed.
Definition read_names (l : list bytes) : list bytes := map (collapse squote) (some_names l).
Definition list_toks (l : list bytes) : toks := commas (map (fun n => [Str (collapse squote n)]) (some_names l)).
Definition clean (d : dialect) (l : list bytes) : Prop := d = MySQL -> Forall (fun n => ~ In backslash n) l.
Lemma some_names_in l n : In n (some_names l) <-> In n l /\ n <> [].
Proof.
  unfold some_names. rewrite filter_In. split; intros [H E]; (split; [exact H|]).
  - intros ->. discriminate E.
  - destruct n; [congruence|reflexivity].
Qed.
Lemma lex_list d l : clean d l -> Lex d (mklist l) (list_toks l).
Proof.
  intros C. rewrite mklist_join. unfold list_toks. apply lex_join. assert (G : forall n, In n (some_names l) -> d = MySQL -> ~ In backslash n).
  { intros n I E. apply some_names_in in I as [I _]. pose proof (C E) as F. rewrite Forall_forall in F. exact (F n I). }
  induction (some_names l) as [|n k IH]; [constructor|]. cbn [map]. constructor; [apply lex_literal; exact (G n (or_introl eq_refl))|]. apply IH. intros m I. exact (G m (or_intror I)).
Qed.
Definition readable (d : dialect) (l : list bytes) : Prop := d = SQLite \/ some_names l <> [].
Lemma read_list d l more : readable d l -> parens (strings d) (Sym "(" :: list_toks l ++ Sym ")" :: more) = Some (read_names l, more).
Proof.
  intros R. apply read_parens. unfold list_toks, read_names. unfold readable in R. destruct (some_names l) as [|n k].
  - destruct R as [->|R]; [|congruence]. reflexivity.
  - assert (strings d (commas (map (fun n => [Str (collapse squote n)]) (n :: k)) ++ Sym ")" :: more) = tlist a_string (sym ",") (commas (map (fun n => [Str (collapse squote n)]) (n :: k)) ++ Sym ")" :: more)) as ->.
    { unfold strings. destruct d; try reflexivity. destruct k; reflexivity. }
    apply (tlist_commas a_string (fun _ => True)); auto; [discriminate|]. generalize (n :: k). intros z. induction z as [|x z IH]; [constructor|]. cbn [map]. constructor; [intros m _; reflexivity|exact IH].
Qed.

(** ** The lines *)
Definition line_conditions (p : list bytes) (l ex : list bytes) : list condition :=
  match l, ex with
  | _ :: _, _ => [Condition p false (read_names l)]
  | [], _ :: _ => [Condition p true (read_names ex)]
  | [], [] => []
  end.
Definition and_toks (cts : list toks) : toks := flat_map (fun ct => Word (B"AND") :: ct) cts.
Definition reads (d : dialect) (ct : toks) (c : condition) : Prop := forall more, a_condition d (ct ++ more) = Some (c, more).
Lemma lines_read d col p ct l ex :
  fixed ([LF] ++ B"    AND " ++ col ++ B" IN (") (Word (B"AND") :: ct ++ [Word (B"IN"); Sym "("]) ->
  fixed ([LF] ++ B"    AND " ++ col ++ B" NOT IN (") (Word (B"AND") :: ct ++ [Word (B"NOT"); Word (B"IN"); Sym "("]) ->
  (forall w m, In w [B"IN"; B"NOT"] -> path d (ct ++ Word w :: m) = Some (p, Word w :: m)) ->
  let k := match l with [] => ex | _ => l end in
  clean d k -> (k = [] \/ readable d k) ->
  exists cts, Lex d (filter_lines col l ex) (and_toks cts) /\ ends (filter_lines col l ex) /\ Forall2 (reads d) cts (line_conditions p l ex).
Proof.
  intros F1 F2 P k C R. unfold filter_lines, line_conditions.
  assert (Lc : Lex d (B")") [Sym ")"]) by (apply lex_tokens; destruct d; vm_compute; reflexivity).
  destruct l as [|x l]; [destruct ex as [|y ex]|].
  - exists []. split; [apply lex_nil|]. split; [apply ends_nil|constructor].
  - destruct R as [R|R]; [discriminate R|]. exists [ct ++ [Word (B"NOT"); Word (B"IN"); Sym "("] ++ list_toks k ++ [Sym ")"]]. split; [|split].
    + cbn [and_toks flat_map]. rewrite app_nil_r. pose proof (lex_fixed d _ (mklist k ++ B")") _ (list_toks k ++ [Sym ")"]) F2 (lex_app d _ _ _ _ (lex_list d k C) Lc ltac:(ending))) as L.
      rewrite <- !app_assoc in L. cbn [app] in L. rewrite <- !app_assoc in L. exact L.
    + ending.
    + constructor; [|constructor]. intros more. unfold a_condition. rewrite <- !app_assoc. cbn [app]. rewrite (P (B"NOT") _ (or_intror (or_introl eq_refl))). cbn [andthen].
      cbn [kw]. change (beqb (to_lower (B"NOT")) (to_lower (B"NOT"))) with true. cbv iota. cbn [kw].
      change (beqb (to_lower (B"IN")) (to_lower (B"IN"))) with true. cbv iota. cbn [andthen]. rewrite (read_list d k more R). reflexivity.
  - destruct R as [R|R]; [discriminate R|]. exists [ct ++ [Word (B"IN"); Sym "("] ++ list_toks k ++ [Sym ")"]]. split; [|split].
    + cbn [and_toks flat_map]. rewrite app_nil_r. pose proof (lex_fixed d _ (mklist k ++ B")") _ (list_toks k ++ [Sym ")"]) F1 (lex_app d _ _ _ _ (lex_list d k C) Lc ltac:(ending))) as L.
      rewrite <- !app_assoc in L. cbn [app] in L. rewrite <- !app_assoc in L. exact L.
    + ending.
    + constructor; [|constructor]. intros more. unfold a_condition. rewrite <- !app_assoc. cbn [app]. rewrite (P (B"IN") _ (or_introl eq_refl)). cbn [andthen].
      cbn [kw]. change (beqb (to_lower (B"IN")) (to_lower (B"NOT"))) with false. cbv iota. cbn [kw].
      change (beqb (to_lower (B"IN")) (to_lower (B"IN"))) with true. cbv iota. cbn [andthen]. rewrite (read_list d k more R). reflexivity.
Qed.
Lemma many_conditions d cts cs : Forall2 (reads d) cts cs -> many (kw (B"AND")) (a_condition d) (and_toks cts) = Some (cs, []).
Proof.
  intros F. unfold many. assert (G : forall n, List.length cts <= n -> many_ n (kw (B"AND")) (a_condition d) (and_toks cts) = Some (cs, [])).
  { induction F as [|ct c cts cs H F IH]; intros n L; [destruct n; reflexivity|]. destruct n as [|n]; [cbn in L; lia|]. cbn [and_toks flat_map app many_ kw].
    change (beqb (to_lower (B"AND")) (to_lower (B"AND"))) with true. cbv iota. rewrite (H _). cbn [andthen]. fold (and_toks cts). rewrite (IH n ltac:(cbn in L; lia)). reflexivity. }
  apply G. clear. induction cts as [|ct cts IH]; [cbn; lia|]. cbn [and_toks flat_map app List.length]. rewrite app_length. fold (and_toks cts). lia.
Qed.

(** ** The whole text *)
Definition schema_path (d : dialect) : list bytes := match d with Postgres => [B"schemas"; B"nspname"] | MySQL => [B"table_schema"] | _ => [B"schemas"; B"name"] end.
Definition table_path (d : dialect) : list bytes := match d with SQLite => [B"m"; B"tbl_name"] | Postgres => [B"tables"; B"relname"] | MySQL => [B"table_name"] | _ => [B"tables"; B"name"] end.
Fixpoint dotted (l : list bytes) : toks := match l with [] => [] | [w] => [Word w] | w :: l' => Word w :: Sym "." :: dotted l' end.
Definition list_ok (d : dialect) (l ex : list bytes) : Prop :=
  let k := match l with [] => ex | _ => l end in clean d k /\ (k = [] \/ readable d k).
Lemma schema_lines d l ex : list_ok d l ex ->
  exists cts, Lex d (filter_lines (schema_column d) l ex) (and_toks cts) /\ ends (filter_lines (schema_column d) l ex) /\ Forall2 (reads d) cts (line_conditions (schema_path d) l ex).
Proof.
  intros [C R]. apply (lines_read d (schema_column d) (schema_path d) (dotted (schema_path d))); [| | |exact C|exact R].
  - destruct d; fix_text.
  - destruct d; fix_text.
  - intros w m [<-|[<-|[]]]; destruct d; reflexivity.
Qed.
Lemma table_lines d l ex : list_ok d l ex ->
  exists cts, Lex d (filter_lines (table_column d) l ex) (and_toks cts) /\ ends (filter_lines (table_column d) l ex) /\ Forall2 (reads d) cts (line_conditions (table_path d) l ex).
Proof.
  intros [C R]. apply (lines_read d (table_column d) (table_path d) (dotted (table_path d))); [| | |exact C|exact R].
  - destruct d; fix_text.
  - destruct d; fix_text.
  - intros w m [<-|[<-|[]]]; destruct d; reflexivity.
Qed.
Definition filter_conditions (d : dialect) (f : choice) : list condition :=
  match d with SQLite => [] | _ => line_conditions (schema_path d) (f_schemas f) (f_exschemas f) end
  ++ line_conditions (table_path d) (f_tables f) (f_extables f).
Lemma conditions_read d f : (d <> SQLite -> list_ok d (f_schemas f) (f_exschemas f)) -> list_ok d (f_tables f) (f_extables f) ->
  conditions d (filter_text d f) = Some (filter_conditions d f).
Proof.
  intros Hs Ht. assert (Gs : exists cts, let s := match d with SQLite => [] | _ => filter_lines (schema_column d) (f_schemas f) (f_exschemas f) end in
    Lex d s (and_toks cts) /\ ends s /\ Forall2 (reads d) cts (match d with SQLite => [] | _ => line_conditions (schema_path d) (f_schemas f) (f_exschemas f) end)).
  { destruct d; try (apply schema_lines; apply Hs; discriminate). exists []. split; [apply lex_nil|]. split; [apply ends_nil|constructor]. }
  destruct Gs as (c1 & L1 & _ & F1). destruct (table_lines d _ _ Ht) as (c2 & L2 & E2 & F2).
  unfold conditions, filter_text, filter_conditions. pose proof (lex_app d _ _ _ _ L1 L2 E2) as L. apply lex_tokens in L. rewrite L. cbn [andthen].
  assert (and_toks c1 ++ and_toks c2 = and_toks (c1 ++ c2)) as -> by (unfold and_toks; rewrite flat_map_app; reflexivity).
  rewrite (many_conditions d _ _ (Forall2_app F1 F2)). reflexivity.
Qed.
(** The names as they are read. *)
Definition taken (l ex : list bytes) (n : bytes) : bool :=
  match l, ex with _ :: _, _ => bmem n (read_names l) | [], _ :: _ => negb (bmem n (read_names ex)) | [], [] => true end.
Lemma all_hold_app d s t a b : all_hold d s t (a ++ b) = andthen (all_hold d s t a) (fun x => andthen (all_hold d s t b) (fun y => Some (x && y)%bool)).
Proof.
  induction a as [|c a IH]; cbn [app all_hold andthen]; [destruct (all_hold d s t b); reflexivity|]. destruct (value_of d s t (cd_column c)); [|reflexivity]. cbn [andthen]. rewrite IH.
  destruct (all_hold d s t a); [|reflexivity]. cbn [andthen]. destruct (all_hold d s t b); [|reflexivity]. cbn [andthen]. rewrite andb_assoc. reflexivity.
Qed.
Lemma hold_line d s t p v l ex : value_of d s t p = Some v -> all_hold d s t (line_conditions p l ex) = Some (taken l ex v).
Proof.
  intros V. unfold line_conditions, taken. destruct l as [|x l]; [destruct ex as [|y ex]|]; cbn [all_hold cd_column cd_not cd_names]; rewrite ?V; cbn [andthen]; rewrite ?andb_true_r, ?xorb_false_l; reflexivity.
Qed.
Theorem selected_taken d f s t : (d <> SQLite -> list_ok d (f_schemas f) (f_exschemas f)) -> list_ok d (f_tables f) (f_extables f) ->
  selected d (filter_text d f) s t = Some (match d with SQLite => true | _ => taken (f_schemas f) (f_exschemas f) s end && taken (f_tables f) (f_extables f) t)%bool.
Proof.
  intros Hs Ht. unfold selected. rewrite (conditions_read d f Hs Ht). cbn [andthen]. unfold filter_conditions. rewrite all_hold_app.
  rewrite (hold_line d s t (table_path d) t) by (destruct d; reflexivity).
  assert (all_hold d s t (match d with SQLite => [] | _ => line_conditions (schema_path d) (f_schemas f) (f_exschemas f) end) = Some (match d with SQLite => true | _ => taken (f_schemas f) (f_exschemas f) s end)) as ->; [|reflexivity].
  destruct d; try reflexivity; apply hold_line; reflexivity.
Qed.
Lemma bmem_some n l : n <> [] -> bmem n (some_names l) = bmem n l.
Proof.
  intros N. induction l as [|x l IH]; [reflexivity|]. unfold some_names, bmem in *. cbn [filter existsb]. rewrite <- IH. destruct (beqb_spec x []) as [->|Nx]; cbn [negb existsb]; [|reflexivity].
  destruct (beqb_spec n []); [contradiction|reflexivity].
Qed.
Lemma read_same d l : Forall (writable d) l -> read_names l = some_names l.
Proof.
  intros F. unfold read_names. rewrite <- (map_id (some_names l)) at 2. apply map_ext_in. intros n I. apply some_names_in in I as [I _]. rewrite Forall_forall in F. apply collapse_id_iff. exact (proj1 (F n I)).
Qed.
Lemma taken_meant d l ex n : n <> [] -> Forall (writable d) (counting l ex) -> taken l ex n = meant l ex n.
Proof.
  intros N F. unfold taken, meant, counting in *. destruct l as [|x l].
  - destruct ex as [|y ex]; [reflexivity|]. rewrite (read_same d _ F), bmem_some by exact N. reflexivity.
  - rewrite (read_same d _ F), bmem_some by exact N. reflexivity.
Qed.
