(** The text of the query that dumps a table, as it is read. *)
From Verif Require Import GoStr GoStrFacts ModelSq SpecSql SqFacts SpecInsert SpecTokens TokenFacts TokenReads ModelDdl ModelSubset SpecSubset ModelSubsetText SpecSubsetText SubsetTextFacts.
From Coq Require Import ZifyBool ZifyNat.

(** A query whose constants are given by text and value. *)
Notation lits := (bytes * value)%type.

Lemma kw_other a b ts : kw a ts <> None -> beqb (to_lower a) (to_lower b) = false -> kw b ts = None.
Proof.
  intros H N. destruct ts as [|[w| | | | |] r]; cbn [kw] in *; try reflexivity. destruct (beqb_spec (to_lower w) (to_lower a)) as [->|X]; [|congruence]. rewrite N. reflexivity.
Qed.
Lemma sym_kw c b ts : sym c ts <> None -> kw b ts = None.
Proof. destruct ts as [|[w| | | | |] r]; cbn; try reflexivity. congruence. Qed.
Section Query.
Context (d : dialect).
Definition lit_ok (l : lits) : Prop := Read d (constant d) ends (fun _ => True) (fst l) (snd l).
Lemma row_read (r : list lits) : r <> [] -> (forall l, In l r -> lit_ok l) -> Read d (values_row d) ends (fun _ => True) (record_text d (map fst r)) (map snd r).
Proof.
  intros N G.
  assert (P : Read d (parens (tlist (constant d) (sym ","))) (fun _ => True) (fun _ => True) (B"(" ++ join (B", ") (map fst r) ++ B")") (map snd r)).
  { apply (parens_read d _ ends (fun m => True /\ sym "," m = None)); [intros x; ending|intros m; split; [exact I|reflexivity]|].
    apply (tlist_read d (constant d) (sym ",") ends (fun _ => True) (B", ") (Sym ",") fst snd); auto; [apply fixed_comma|apply comma_ends]. }
  intros rest R. destruct (P rest I) as (ts & L & Q). unfold record_text. destruct d eqn:Ed; cbn [dialect_eqb app]; try (exists ts; split; [exact L|]; intros more _; unfold values_row; cbn [andthen]; exact (Q more I)).
  exists (Word (B"ROW") :: ts). split.
  - change (lexed MySQL (B"ROW" ++ ((B"(" ++ join (B", ") (map fst r) ++ B")") ++ rest)) ([Word (B"ROW")] ++ ts) rest). refine (lexed_app MySQL _ _ _ _ _ (word_lexed MySQL (B"ROW") _ eq_refl eq_refl _) L). cbn. repeat split; solve [reflexivity|discriminate].
  - intros more _. unfold values_row. cbn [app]. words. exact (Q more I).
Qed.
Lemma records_form n (rs : list (list bytes)) : exists l, map snd l = rs /\ (forall s x, In (s, x) l -> s = B"," \/ s = break ++ B",")
  /\ records_text d false n rs = flat_map (fun p => fst p ++ record_text d (snd p)) l.
Proof.
  revert n. induction rs as [|r rs IH]; intros n; [exists []; split; [reflexivity|split; [intros s x []|reflexivity]]|]. cbn [records_text]. destruct (80 <? n).
  - destruct (IH (List.length break + List.length (B"," ++ record_text d r))) as (l & E & Hl & T). exists ((break ++ B",", r) :: l). split; [cbn [map snd]; rewrite E; reflexivity|]. split.
    + intros s x [[= <- <-]|H]; [right; reflexivity|exact (Hl s x H)].
    + cbn [flat_map fst snd]. rewrite T, <- !app_assoc. reflexivity.
  - destruct (IH (n + List.length (B"," ++ record_text d r))) as (l & E & Hl & T). exists ((B",", r) :: l). split; [cbn [map snd]; rewrite E; reflexivity|]. split.
    + intros s x [[= <- <-]|H]; [left; reflexivity|exact (Hl s x H)].
    + cbn [flat_map fst snd]. rewrite T, <- !app_assoc. reflexivity.
Qed.
Definition recs_ok (rs : list (list lits)) : Prop := rs <> [] /\ forall r, In r rs -> r <> [] /\ forall l, In l r -> lit_ok l.
Lemma rows_read (rs : list (list lits)) : recs_ok rs -> Read d (tlist (values_row d) (sym ",")) ends (fun m => sym "," m = None) (records_text d true 0 (map (map fst) rs)) (map (map snd) rs).
Proof.
  intros [N G]. destruct rs as [|r rs]; [congruence|]. cbn [map records_text]. change (80 <? 0) with false. cbv iota. cbn [app].
  destruct (records_form (0 + List.length (record_text d (map fst r))) (map (map fst) rs)) as (l & E & Hl & ->).
  assert (exists l' : list (bytes * list lits), map snd l' = rs /\ l = map (fun p => (fst p, map fst (snd p))) l') as (l' & <- & ->).
  { clear -E. revert rs E. induction l as [|[s x] l IH]; intros rs E; destruct rs as [|y rs]; try discriminate E; [exists []; split; reflexivity|]. cbn [map snd] in E. injection E as -> E. destruct (IH rs E) as (l' & <- & ->). exists ((s, y) :: l'). split; reflexivity. }
  rewrite flat_map_concat_map, map_map, <- flat_map_concat_map. cbn [fst snd].
  apply (read_weaken d _ ends _ (fun m => True /\ sym "," m = None)); [auto|intros m M; split; [exact I|exact M]|].
  apply (tlist_seps d (values_row d) (sym ",") ends (fun _ => True) (Sym ",") (fun x => record_text d (map fst x)) (map snd) (fun _ => I) (fun m => eq_refl) r l').
  - intros x Ix. destruct (G x Ix) as [Nx Lx]. apply row_read; assumption.
  - intros s x rr Ix. destruct (Hl s (map fst x)) as [->| ->]; [apply in_map_iff; exists (s, x); split; [reflexivity|exact Ix]|split; [apply fixed_lexed; fix_text|ending]..].
Qed.
(** ** The parts of WITH *)
Definition word_ok (w : bytes) : Prop :=
  forallb ident_continue w = true /\ (match w with c :: _ => ident_start c = true | [] => False end) /\ bmem (to_lower w) (reserved d) = false /\ fold_ident d w = w.
Lemma word_ok_read w : word_ok w -> Read d (name d) delimited (fun _ => True) w w.
Proof. intros (A & C & M & F). rewrite <- F at 2. apply word_read; assumption. Qed.
Definition names_ok (l : list bytes) : Prop := l <> [] /\ forall c, In c l -> good d c.
Lemma columns_text_read l : names_ok l -> Read d (names d) ends (fun m => sym "," m = None) (columns_text d l) l.
Proof.
  intros [N G]. assert (E : map (denoted d) l = l) by (rewrite <- (map_id l) at 2; apply map_ext_in; exact G). rewrite <- E at 2. apply names_read. exact N.
Qed.
Lemma names_parens l rest : names_ok l -> exists ts, lexed d (B"(" ++ columns_text d l ++ B")" ++ rest) ts rest /\ forall more, parens (names d) (ts ++ more) = Some (l, more).
Proof.
  intros G. destruct (parens_read d (names d) ends (fun m => sym "," m = None) (columns_text d l) l (fun r => ltac:(ending)) (fun m => eq_refl) (columns_text_read l G) rest I) as (ts & L & P).
  exists ts. split; [rewrite <- !app_assoc in L; exact L|]. intros more. exact (P more I).
Qed.
Definition values_body (v : bytes * list bytes * list (list bytes)) : bytes :=
  let '(name, cols, recs) := v in
  name ++ B" "
  ++ (if dialect_eqb d SQLServer then B" AS (" ++ LF :: B"    SELECT * FROM (VALUES "
      else B"(" ++ columns_text d cols ++ B") AS (" ++ LF :: B"    VALUES ")
  ++ records_text d true 0 recs
  ++ (if dialect_eqb d SQLServer then B") AS tmp (" ++ columns_text d cols ++ B")" else [])
  ++ LF :: B")" ++ [LF].
Lemma values_rows_read rs pre rest : recs_ok rs -> (forall r, lexed d (pre ++ r) [Word (B"VALUES")] r) -> ends rest ->
  exists ts, lexed d (pre ++ records_text d true 0 (map (map fst) rs) ++ rest) ts rest /\ forall more, sym "," more = None -> values_rows d (ts ++ more) = Some (map (map snd) rs, more).
Proof.
  intros G Hp R. destruct (rows_read rs G rest R) as (ts & L & P). exists (Word (B"VALUES") :: ts). split; [exact (lexed_app d _ [Word (B"VALUES")] _ _ _ (Hp _) L)|].
  intros more M. unfold values_rows. cbn [app]. words. exact (P more M).
Qed.
Lemma cte_values_read n cols rs : word_ok n -> names_ok cols -> recs_ok rs ->
  Read d (read_cte d) (fun _ => True) (fun _ => True) (values_body (n, cols, map (map fst) rs)) (CValues n cols (map (map snd) rs)).
Proof.
  intros Wn Wc Wr rest R.
  assert (exists ts, lexed d (values_body (n, cols, map (map fst) rs) ++ rest) ts rest /\ forall more, cte_values d (ts ++ more) = Some (CValues n cols (map (map snd) rs), more)) as (ts & L & P).
  2: { exists ts. split; [exact L|]. intros more _. unfold read_cte. rewrite P. reflexivity. }
  unfold values_body. rewrite <- !app_assoc.
  destruct (dialect_eqb d SQLServer) eqn:Ed.
  - assert (d = SQLServer) as Es by (destruct d; try discriminate Ed; reflexivity).
    assert (word_ok (B"tmp")) as Wt by (rewrite <- Es in *; clear -Es; repeat split; rewrite ?Es; vm_compute; reflexivity).
    repeat (rewrite <- app_assoc; cbn [app]).
    match goal with |- exists ts, lexed d (n ++ ?r) ts rest /\ _ => destruct (word_ok_read n Wn r) as (tn & Ln & Pn); [cbn; repeat split; solve [reflexivity|discriminate]|] end.
    destruct (names_parens cols ((LF :: B")" ++ [LF]) ++ rest) Wc) as (tc & Lc & Pc).
    destruct (values_rows_read rs (B"VALUES ") (B") AS tmp (" ++ columns_text d cols ++ B")" ++ LF :: B")" ++ LF :: rest) Wr) as (tr & Lr & Pr); [intros r; apply fixed_lexed; fix_text|ending|].
    exists (tn ++ Word (B"AS") :: Sym "(" :: Word (B"SELECT") :: Sym "*" :: Word (B"FROM") :: Sym "(" :: tr ++ Sym ")" :: Word (B"AS") :: Word (B"tmp") :: tc ++ [Sym ")"]). split.
    + apply (lexed_app d _ _ _ _ _ Ln). change (lexed d ((B"  AS (" ++ LF :: B"    SELECT * FROM (") ++ B"VALUES " ++ records_text d true 0 (map (map fst) rs) ++ B") AS tmp (" ++ columns_text d cols ++ B")" ++ LF :: B")" ++ LF :: rest)
        ([Word (B"AS"); Sym "("; Word (B"SELECT"); Sym "*"; Word (B"FROM"); Sym "("] ++ tr ++ Sym ")" :: Word (B"AS") :: Word (B"tmp") :: tc ++ [Sym ")"]) rest).
      eapply lexed_app; [apply fixed_lexed; fix_text|]. apply (lexed_app d _ _ _ _ _ Lr). fx (B") AS tmp ") [Sym ")"; Word (B"AS"); Word (B"tmp")]. apply (lexed_app d _ _ _ _ _ Lc). fx (LF :: B")" ++ [LF]) [Sym ")"]. apply lexed_none.
    + intros more. unfold cte_values. rewrite Es. rewrite <- Es. rewrite <- app_assoc. rewrite (Pn _ I). cbn [andthen app]. words. unfold parens at 1. words.
      unfold parens at 1. words. rewrite <- !app_assoc. cbn [app]. rewrite Pr by reflexivity. words. unfold name at 1. unfold name_token. replace (bmem (to_lower (B"tmp")) (reserved d)) with false by (rewrite Es; reflexivity). cbn [andthen]. rewrite <- app_assoc. rewrite Pc. cbn [andthen app]. words. reflexivity.
  - assert (d <> SQLServer) as Es by (intros ->; discriminate Ed).
    repeat (rewrite <- app_assoc; cbn [app]).
    match goal with |- exists ts, lexed d (n ++ ?r) ts rest /\ _ => destruct (word_ok_read n Wn r) as (tn & Ln & Pn); [cbn; repeat split; solve [reflexivity|discriminate]|] end.
    destruct (values_rows_read rs (LF :: B"    VALUES ") (LF :: B")" ++ LF :: rest) Wr) as (tr & Lr & Pr); [intros r; apply fixed_lexed; fix_text|ending|].
    destruct (names_parens cols (B" AS (" ++ LF :: B"    VALUES " ++ records_text d true 0 (map (map fst) rs) ++ LF :: B")" ++ LF :: rest) Wc) as (tc & Lc & Pc).
    exists (tn ++ tc ++ Word (B"AS") :: Sym "(" :: tr ++ [Sym ")"]). split.
    + apply (lexed_app d _ _ _ _ _ Ln). change (lexed d (B" " ++ B"(" ++ columns_text d cols ++ B")" ++ B" AS (" ++ LF :: B"    VALUES " ++ records_text d true 0 (map (map fst) rs) ++ LF :: B")" ++ LF :: rest) ([] ++ tc ++ [Word (B"AS"); Sym "("] ++ tr ++ [Sym ")"]) rest).
      fx (B" ") (@nil token). apply (lexed_app d _ _ _ _ _ Lc). fx (B" AS (") [Word (B"AS"); Sym "("]. apply (lexed_app d _ _ _ _ _ Lr). fx (LF :: B")" ++ [LF]) [Sym ")"]. apply lexed_none.
    + intros more. assert (cte_values d ((tn ++ tc ++ Word (B"AS") :: Sym "(" :: tr ++ [Sym ")"]) ++ more) = let? (n0, r) := name d ((tn ++ tc ++ Word (B"AS") :: Sym "(" :: tr ++ [Sym ")"]) ++ more) in let? (cols0, r) := parens (names d) r in let? r := kw (B"as") r in
         let? (rows, r) := parens (values_rows d) r in Some (CValues n0 cols0 rows, r)) as -> by (unfold cte_values; destruct d; try reflexivity; congruence).
      repeat (rewrite <- app_assoc; cbn [app]). rewrite (Pn _ I). cbn [andthen]. rewrite Pc. words. unfold parens at 1. words. rewrite Pr by reflexivity. cbn [andthen]. words. reflexivity.
Qed.

(** ** The whole query *)
Definition pk : bytes := B"pkey_".
Lemma pkey_name : quote_identifier d pk = pk /\ good d pk /\ word_ok pk.
Proof. unfold good, word_ok. destruct d; repeat split; vm_compute; reflexivity. Qed.
Definition select_body (i : tid) (key : list bytes) (s : sql_join) : bytes := B"SELECT DISTINCT " ++ key_columns_text d i key ++ LF :: B"    FROM " ++ sql_join_text d s.
Lemma selects_text i key l : l <> [] -> firsts (fun first => select_text d first i key) l = (LF :: B"    ") ++ join (LF :: B"    UNION" ++ LF :: B"    ") (map (select_body i key) l).
Proof.
  destruct l as [|s l]; [congruence|]. intros _. cbn [firsts]. unfold select_text at 1. cbn [app]. fold (select_body i key s). cbn [app]. rewrite <- app_assoc. do 2 f_equal.
  change (map (select_body i key) (s :: l)) with (select_body i key s :: map (select_body i key) l). revert s. induction l as [|x l IH]; intros s; [cbn [flat_map map join]; apply app_nil_r|].
  cbn [map]. rewrite join_cons by discriminate. f_equal. cbn [flat_map]. rewrite <- (IH x). unfold select_text at 1. fold (select_body i key x). cbn [app]. rewrite <- !app_assoc. reflexivity.
Qed.
Definition sels_ok (l : list sql_join) : Prop := l <> [] /\ forall s, In s l -> good_join d s.
Definition keys_body (i : tid) (key : list bytes) (sels : list sql_join) : bytes :=
  B"pkey_ (" ++ columns_text d key ++ B") AS (" ++ firsts (fun first => select_text d first i key) sels ++ LF :: B")" ++ [LF].
Definition keys_cte (i : tid) (key : list bytes) (sels : list sql_join) : cte := CKeys pk key (map (fun s => (map (fun c => (i, c)) key, s)) sels).
Lemma keys_read i key sels : good_tid d i -> names_ok key -> sels_ok sels -> Read d (read_cte d) (fun _ => True) (fun _ => True) (keys_body i key sels) (keys_cte i key sels).
Proof.
  intros Gi Gk [Ns Gs] rest R. unfold keys_body. rewrite (selects_text i key sels Ns). repeat (rewrite <- app_assoc; cbn [app]).
  destruct pkey_name as (_ & _ & Wp).
  set (SEP := LF :: B"    UNION" ++ LF :: B"    ") in *.
  assert (RS : Read d (tlist (select_distinct d) (kw (B"union"))) ends (fun m => nojoin m /\ kw (B"union") m = None) (join SEP (map (select_body i key) sels)) (map (fun s => (map (fun c => (i, c)) key, s)) sels)).
  { apply (tlist_read d (select_distinct d) (kw (B"union")) ends nojoin SEP (Word (B"UNION"))); [intros r; apply fixed_lexed; fix_text|intros r; ending|intros m; repeat split|intros m; reflexivity|exact Ns|].
    intros s Is. destruct Gk as [Nk Gk]. apply select_read; auto. }
  destruct (RS (LF :: B")" ++ LF :: rest) ltac:(ending)) as (ts & Ls & Ps).
  match goal with |- exists ts, lexed d ?t ts rest /\ _ => match t with context [B") AS (" ++ ?r] => destruct (names_parens key (B" AS (" ++ r) Gk) as (tk & Lk & Pk) end end.
  destruct (word_ok_read pk Wp (B" (" ++ columns_text d key ++ B")" ++ B" AS (" ++ LF :: B"    " ++ join SEP (map (select_body i key) sels) ++ LF :: B")" ++ LF :: rest)) as (tp & Lp & Pp); [cbn; repeat split; solve [reflexivity|discriminate]|].
  exists (tp ++ tk ++ Word (B"AS") :: Sym "(" :: ts ++ [Sym ")"]). split.
  - apply (lexed_app d (pk ++ _) _ _ _ _ Lp). fx (B" ") (@nil token). refine (lexed_app d _ _ _ _ _ Lk _). fx (B" AS (" ++ LF :: B"    ") [Word (B"AS"); Sym "("]. apply (lexed_app d _ _ _ _ _ Ls). fx (LF :: B")" ++ [LF]) [Sym ")"]. apply lexed_none.
  - intros more _. repeat (rewrite <- app_assoc; cbn [app]). set (rest2 := Word (B"AS") :: Sym "(" :: ts ++ Sym ")" :: more).
    specialize (Ps (Sym ")" :: more) (conj (conj (conj eq_refl eq_refl) eq_refl) eq_refl)).
    assert (Nv : values_rows d (ts ++ Sym ")" :: more) = None).
    { unfold values_rows. rewrite (kw_other (B"select") (B"values")); [reflexivity| |reflexivity]. intros E. unfold tlist in Ps. cbn [tlist_] in Ps. unfold select_distinct at 1 in Ps. cbn [kws] in Ps. rewrite E in Ps. discriminate Ps. }
    assert (cte_values d (tp ++ tk ++ rest2) = None) as Nc.
    { unfold cte_values. destruct d eqn:Ed; try (rewrite (Pp _ I); cbn [andthen]; rewrite Pk; unfold rest2; words; unfold parens at 1; words; rewrite Nv; reflexivity).
      rewrite (Pp _ I). cbn [andthen]. rewrite (sym_kw "(" (B"as")); [reflexivity|]. intros E. specialize (Pk rest2). unfold parens in Pk. rewrite E in Pk. discriminate Pk. }
    unfold read_cte. rewrite Nc. unfold cte_keys. rewrite (Pp _ I). cbn [andthen]. rewrite Pk. unfold rest2. words. unfold parens at 1. words. rewrite Ps. cbn [andthen]. words. reflexivity.
Qed.

Record query_ok (q : sql_query lits) : Prop := {
  ok_values : forall n cols recs, In (n, cols, recs) (sq_values q) -> word_ok n /\ names_ok cols /\ recs_ok recs /\ forall r, In r recs -> List.length r = List.length cols;
  ok_selects : sels_ok (sq_selects q);
  ok_table : good_tid d (sq_table q);
  ok_key : names_ok (sq_key q);
  ok_columns : names_ok (sq_columns q);
  ok_names : NoDup (pk :: map (fun v => fst (fst v)) (sq_values q));
  ok_hidden : forall n, In n (pk :: map (fun v => fst (fst v)) (sq_values q)) -> sq_table q <> ([], n);
  ok_pkey : forall s, In s (sq_selects q) -> ~ In ([], pk) (tables_of s) }.
Definition cte_source := option (bytes * list bytes * list (list lits)).
Definition cte_text (q : sql_query lits) (x : cte_source) : bytes :=
  match x with Some v => values_body (map_values fst v) | None => keys_body (sq_table q) (sq_key q) (sq_selects q) end.
Definition cte_value (q : sql_query lits) (x : cte_source) : cte :=
  match x with Some (n, cols, recs) => CValues n cols (map (map snd) recs) | None => keys_cte (sq_table q) (sq_key q) (sq_selects q) end.
Definition sources (q : sql_query lits) : list cte_source := map Some (sq_values q) ++ [None].
Lemma ctes_text (q : sql_query lits) (K : bytes) : firsts (values_text d) (sq_values (map_query fst q)) ++ (match sq_values (map_query fst q) with [] => B"WITH " | _ => B"," end) ++ K =
  B"WITH " ++ join (B",") (map (fun v => values_body (map_values fst v)) (sq_values q) ++ [K]).
Proof.
  cbn [map_query sq_values]. destruct (sq_values q) as [|v l]; [reflexivity|]. cbn [map firsts].
  assert (E : forall first v, values_text d first v = (if first then B"WITH " else B",") ++ values_body v) by (intros first [[n c] r]; reflexivity).
  rewrite E. rewrite <- !app_assoc. f_equal. revert v. induction l as [|w l IH]; intros v.
  - cbn [map flat_map app join]. reflexivity.
  - cbn [map flat_map app]. rewrite (join_cons _ _ (_ :: _)) by discriminate. f_equal. rewrite E. rewrite <- !app_assoc. f_equal. apply IH.
Qed.
Lemma join_last_app sep (l : list bytes) k k' : join sep (l ++ [k ++ k']) = join sep (l ++ [k]) ++ k'.
Proof.
  induction l as [|x l IH]; [reflexivity|]. cbn [app]. rewrite !join_cons by (destruct l; discriminate). rewrite IH, <- !app_assoc. reflexivity.
Qed.
Definition main_join (i : tid) (key : list bytes) : sql_join := SqlJoin i [(([], pk), map (fun c => ((([], pk), c), (i, c))) key)].
Lemma main_join_read i key : good_tid d i -> names_ok key ->
  Read d (from_clause d) ends nojoin (full_name d i ++ LF :: B"JOIN pkey_ ON " ++ join (B" AND ") (map (pkey_cond_text d i) key)) (main_join i key).
Proof.
  intros Gi [Nk Gk]. destruct pkey_name as (Qp & Gp & Wp).
  assert (Gp' : good_tid d ([], pk)) by (split; [intros X; cbn in X; congruence|exact Gp]).
  pose proof (from_read d (LF :: B"JOIN ") (main_join i key)) as H. cbn [main_join sj_first sj_rest flat_map fst snd] in H.
  assert (F : full_name d ([], pk) = pk) by (unfold full_name; cbn [fst snd beqb app]; exact Qp).
  assert (E : map (cond_text d) (map (fun c => ((([], pk), c), (i, c))) key) = map (pkey_cond_text d i) key).
  { rewrite map_map. apply map_ext. intros c. unfold cond_text, pkey_cond_text, column_text. cbn [fst snd]. rewrite F. cbn [app]. reflexivity. }
  rewrite E, F, app_nil_r in H. apply H; clear H.
  - intros r. apply fixed_lexed. fix_text.
  - intros r. ending.
  - split; [exact Gi|]. intros t on [[= <- <-]|[]]. split; [exact Gp'|]. split; [intros X; apply map_eq_nil in X; congruence|].
    intros a b I. apply in_map_iff in I as (c & [= <- <-] & Ic). split; split; auto.
Qed.
Definition with_of (q : sql_query lits) : with_query :=
  WithQuery (map (cte_value q) (sources q)) (map (fun c => (sq_table q, c)) (sq_columns q)) (main_join (sq_table q) (sq_key q)) (map (fun c => (sq_table q, c)) (sq_key q)).
Lemma text_read q : query_ok q -> exists ts, tokens d (query_text d (map_query fst q)) = Some ts /\ read_with d ts = Some (with_of q).
Proof.
  intros Ok. destruct (ok_key q Ok) as [Nk Gk]. destruct (ok_columns q Ok) as [Nc Gc]. pose proof (ok_table q Ok) as Gi.
  assert (T : query_text d (map_query fst q) = B"WITH " ++ join (B",") (map (cte_text q) (sources q)) ++ B"SELECT "
    ++ join (LF :: B"    ,") (map (column_text d (sq_table q)) (sq_columns q)) ++ LF :: B"FROM "
    ++ (full_name d (sq_table q) ++ LF :: B"JOIN pkey_ ON " ++ join (B" AND ") (map (pkey_cond_text d (sq_table q)) (sq_key q)))
    ++ LF :: B"ORDER BY " ++ key_columns_text d (sq_table q) (sq_key q) ++ LF :: B";").
  { unfold query_text. rewrite ctes_text. cbn [map_query sq_table sq_key sq_selects sq_columns]. f_equal. unfold sources. rewrite map_app, map_map. cbn [map cte_text].
    match goal with |- join _ (_ ++ [?k]) = _ => replace k with (keys_body (sq_table q) (sq_key q) (sq_selects q) ++ B"SELECT "
      ++ join (LF :: B"    ,") (map (column_text d (sq_table q)) (sq_columns q)) ++ LF :: B"FROM "
      ++ (full_name d (sq_table q) ++ LF :: B"JOIN pkey_ ON " ++ join (B" AND ") (map (pkey_cond_text d (sq_table q)) (sq_key q)))
      ++ LF :: B"ORDER BY " ++ key_columns_text d (sq_table q) (sq_key q) ++ LF :: B";") end; [apply join_last_app|].
    unfold keys_body. repeat (rewrite <- app_assoc; cbn [app]). destruct (sq_key q) as [|k0 key]; [congruence|]. repeat (rewrite <- app_assoc; cbn [app]). reflexivity. }
  assert (RC : Read d (tlist (read_cte d) (sym ",")) (fun _ => True) (fun m => True /\ sym "," m = None) (join (B",") (map (cte_text q) (sources q))) (map (cte_value q) (sources q))).
  { apply (tlist_read d (read_cte d) (sym ",") (fun _ => True) (fun _ => True) (B",") (Sym ",")); [intros r; apply fixed_lexed; fix_text|auto|auto|intros m; reflexivity|unfold sources; intros X; apply app_eq_nil in X as [_ X]; discriminate X|].
    intros x Ix. unfold sources in Ix. apply in_app_iff in Ix as [Ix|[<-|[]]].
    - apply in_map_iff in Ix as ([[n cols] recs] & <- & Iv). destruct (ok_values q Ok n cols recs Iv) as (W1 & W2 & W3 & _). unfold cte_text, cte_value, map_values. cbn [fst snd]. apply cte_values_read; assumption.
    - apply keys_read; [exact Gi|exact (ok_key q Ok)|exact (ok_selects q Ok)]. }
  rewrite T.
  destruct (columns_read d (sq_table q) (sq_key q) (B", ") (fixed_comma d) comma_ends Gi Nk Gk (LF :: B";")) as (t4 & L4 & P4); [ending|].
  destruct (main_join_read (sq_table q) (sq_key q) Gi (ok_key q Ok) (LF :: B"ORDER BY " ++ key_columns_text d (sq_table q) (sq_key q) ++ LF :: B";")) as (t3 & L3 & P3); [ending|].
  match type of L3 with lexed d ?x t3 _ =>
    destruct (columns_read d (sq_table q) (sq_columns q) (LF :: B"    ,")) with (rest := LF :: B"FROM " ++ x) as (t2 & L2 & P2); [intros r; apply fixed_lexed; fix_text|intros r; ending|exact Gi|exact Nc|exact Gc|ending|] end.
  match type of L2 with lexed d ?x t2 _ => destruct (RC (B"SELECT " ++ x) I) as (t1 & L1 & P1) end.
  exists (Word (B"WITH") :: t1 ++ Word (B"SELECT") :: t2 ++ Word (B"FROM") :: t3 ++ Word (B"ORDER") :: Word (B"BY") :: t4 ++ [Sym ";"]). split.
  - apply lexed_tokens. fx (B"WITH ") [Word (B"WITH")]. apply (lexed_app d _ _ _ _ _ L1). fx (B"SELECT ") [Word (B"SELECT")]. apply (lexed_app d _ _ _ _ _ L2).
    fx (LF :: B"FROM ") [Word (B"FROM")]. apply (lexed_app d _ _ _ _ _ L3). fx (LF :: B"ORDER BY ") [Word (B"ORDER"); Word (B"BY")]. apply (lexed_app d _ _ _ _ _ L4).
    rewrite <- (app_nil_r (LF :: B";")). apply fixed_lexed. fix_text.
  - unfold read_with. words. rewrite P1 by (split; [exact I|reflexivity]). words. rewrite P2 by (split; reflexivity). words. rewrite P3 by (repeat split). words. rewrite P4 by (split; reflexivity). cbn [andthen]. reflexivity.
Qed.
Lemma tid_eqb_refl i : tid_eqb i i = true.
Proof. unfold tid_eqb. rewrite !beqb_refl. reflexivity. Qed.
Lemma tid_eqb_neq i j : i <> j -> tid_eqb i j = false.
Proof. intros N. unfold tid_eqb. destruct (beqb_spec (fst i) (fst j)) as [E1|]; [|reflexivity]. destruct (beqb_spec (snd i) (snd j)) as [E2|]; [|reflexivity]. exfalso. apply N. destruct i, j; cbn in *; congruence. Qed.
Lemma same_list_refl {A} (eqb : A -> A -> bool) l : (forall a, eqb a a = true) -> same_list eqb l l = true.
Proof. intros H. induction l as [|a l IH]; [reflexivity|]. cbn. rewrite H. exact IH. Qed.
Lemma colref_eqb_refl c : colref_eqb c c = true.
Proof. unfold colref_eqb. rewrite tid_eqb_refl, beqb_refl. reflexivity. Qed.
Lemma distinct_NoDup l : NoDup l -> distinct l = true.
Proof. induction 1 as [|x l N _ IH]; [reflexivity|]. cbn. rewrite IH. apply bmem_not_In in N. rewrite N. reflexivity. Qed.
Lemma query_read q : query_ok q -> read_query d (query_text d (map_query fst q)) = Some (map_query snd q).
Proof.
  intros Ok. destruct (text_read q Ok) as (ts & T & R). unfold read_query. rewrite T. cbn [andthen]. rewrite R. cbn [andthen].
  unfold understood, with_of. cbn [w_ctes w_columns w_from w_order]. unfold sources. rewrite map_app, rev_app_distr. cbn [map rev app cte_value keys_cte]. rewrite rev_involutive, map_map.
  assert (V : all_values (map (fun x => cte_value q (Some x)) (sq_values q)) = Some (map (map_values snd) (sq_values q))).
  { induction (sq_values q) as [|[[n c] r] l IH]; [reflexivity|]. cbn [map cte_value all_values]. cbn [cte_value] in IH. rewrite IH. reflexivity. }
  rewrite V. cbn [andthen main_join sj_first sj_rest]. rewrite map_map.
  assert (N : map (fun x => fst (fst (map_values (@snd bytes value) x))) (sq_values q) = map (fun v => fst (fst v)) (sq_values q)) by (apply map_ext; intros [[n c] r]; reflexivity).
  rewrite N. set (i := sq_table q) in *. set (names := pk :: map (fun v => fst (fst v)) (sq_values q)).
  assert (C : (tid_eqb ([], pk) ([], pk)
     && same_list (fun a b => colref_eqb (fst a) (fst b) && colref_eqb (snd a) (snd b)) (map (fun c => (([], pk, c), (i, c))) (sq_key q)) (map (fun c => (([], pk, c), (i, c))) (sq_key q))
     && same_list colref_eqb (map (fun c => (i, c)) (sq_key q)) (map (fun c => (i, c)) (sq_key q))
     && forallb (fun s => same_list colref_eqb (fst s) (map (fun c => (i, c)) (sq_key q))) (map (fun s => (map (fun c => (i, c)) (sq_key q), s)) (sq_selects q))
     && forallb (fun c : colref => tid_eqb (fst c) i) (map (fun c => (i, c)) (sq_columns q))
     && distinct names
     && forallb (fun v => forallb (fun r => List.length r =? List.length (snd (fst v))) (snd v)) (map (map_values snd) (sq_values q))
     && negb (existsb (fun n => tid_eqb i ([], n)) names)
     && forallb (fun s => negb (existsb (tid_eqb ([], pk)) (tables_of (snd s)))) (map (fun s => (map (fun c => (i, c)) (sq_key q), s)) (sq_selects q)))%bool = true).
  { refine (andb_true_intro (conj (andb_true_intro (conj (andb_true_intro (conj (andb_true_intro (conj (andb_true_intro (conj (andb_true_intro (conj (andb_true_intro (conj (andb_true_intro (conj _ _)) _)) _)) _)) _)) _)) _)) _)).
    - apply tid_eqb_refl.
    - apply same_list_refl. intros a. rewrite !colref_eqb_refl. reflexivity.
    - apply same_list_refl, colref_eqb_refl.
    - apply forallb_forall. intros x Ix. apply in_map_iff in Ix as (s & <- & _). cbn [fst]. apply same_list_refl, colref_eqb_refl.
    - apply forallb_forall. intros x Ix. apply in_map_iff in Ix as (s & <- & _). apply tid_eqb_refl.
    - apply distinct_NoDup. exact (ok_names q Ok).
    - apply forallb_forall. intros x Ix. apply in_map_iff in Ix as ([[n c] r] & <- & Iv). cbn [fst snd map_values]. apply forallb_forall. intros y Iy. apply in_map_iff in Iy as (z & <- & Iz). rewrite map_length.
      apply Nat.eqb_eq. destruct (ok_values q Ok n c r Iv) as (_ & _ & _ & L). exact (L z Iz).
    - apply negb_true_iff. destruct (existsb (fun n => tid_eqb i ([], n)) names) eqn:E; [|reflexivity]. apply existsb_exists in E as (n & In_ & E). rewrite (tid_eqb_neq i ([], n)) in E; [discriminate E|]. exact (ok_hidden q Ok n In_).
    - apply forallb_forall. intros x Ix. apply in_map_iff in Ix as (s & <- & Is). cbn [snd]. apply negb_true_iff. destruct (existsb (tid_eqb ([], pk)) (tables_of s)) eqn:E; [|reflexivity]. exfalso. apply existsb_exists in E as (t & It & E).
      destruct (list_eq_dec Ascii.ascii_dec (snd t) pk) as [E2|N2]; [|rewrite (tid_eqb_neq ([], pk) t) in E; [discriminate E|intros X; apply N2; rewrite <- X; reflexivity]].
      destruct t as [[|x t1] t2]; cbn [snd] in E2; [subst t2; exact (ok_pkey q Ok s Is It)|]. discriminate E. }
  match goal with |- (if ?b then _ else _) = _ => replace b with true by (symmetry; exact C) end. unfold map_query. rewrite !map_map. cbn [snd]. rewrite !map_id. reflexivity.
Qed.
End Query.
