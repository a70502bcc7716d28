(** The text of a column definition is read as the column. *)
From Verif Require Import GoStr GoStrFacts TrimFacts ModelSq SpecSql SqFacts SpecInsert SpecTokens TokenFacts TokenReads SpecDdl ModelCatalog ModelDdl ModelDiff ModelDiffSql ModelDdlText SpecDdlText DdlTokens.
From Coq Require Import ZifyBool ZifyNat.

(** ** Types *)
Ltac chars c := destruct c as [b0 b1 b2 b3 b4 b5 b6 b7]; destruct b0, b1, b2, b3, b4, b5, b6, b7; vm_compute.
Lemma upper_char c : is_space (to_upper_c c) = is_space c /\ ident_start (to_upper_c c) = ident_start c /\ ident_continue (to_upper_c c) = ident_continue c
  /\ is_digit (to_upper_c c) = is_digit c /\ (is_lower c = false -> to_upper_c c = c) /\ (is_lower c = true -> ident_start c = true /\ is_space c = false).
Proof. chars c; repeat split; congruence. Qed.
Lemma upper_is c x : is_lower x = false -> is_upper x = false -> ceqb (to_upper_c c) x = ceqb c x.
Proof.
  intros Hl Hu. destruct (is_lower c) eqn:L.
  - assert (ceqb c x = false) as -> by (apply ceqb_neq; congruence). apply ceqb_neq. intros <-. revert L Hu. chars c; congruence.
  - unfold to_upper_c. rewrite L. reflexivity.
Qed.
Lemma take_ident_upper s w r : take_ident s = (w, r) -> take_ident (to_upper s) = (to_upper w, to_upper r).
Proof.
  revert w r. induction s as [|c s IH]; intros w r; cbn [take_ident to_upper map]; [intros [= <- <-]; reflexivity|].
  destruct (upper_char c) as (_ & _ & -> & _). destruct (ident_continue c); [|intros [= <- <-]; reflexivity]. destruct (take_ident s) as [a b]. intros [= <- <-].
  fold (to_upper s). rewrite (IH a b eq_refl). reflexivity.
Qed.
Lemma take_number_upper s w r : take_number s = (w, r) -> take_number (to_upper s) = (to_upper w, to_upper r).
Proof.
  revert w r. induction s as [|c s IH]; intros w r; cbn [take_number to_upper map]; [intros [= <- <-]; reflexivity|].
  destruct (upper_char c) as (_ & _ & -> & _). rewrite (upper_is c ".") by reflexivity. destruct (ident_continue c || ceqb c ".")%bool; [|intros [= <- <-]; reflexivity]. destruct (take_number s) as [a b]. intros [= <- <-].
  fold (to_upper s). rewrite (IH a b eq_refl). reflexivity.
Qed.
Lemma lex_one_upper d s ts r : lex_one d s = Some (ts, r) -> forallb plain_token ts = true -> lex_one d (to_upper s) = Some (map up ts, to_upper r).
Proof.
  intros H P. unfold lex_one in H. destruct s as [|c s]; [discriminate H|]. unfold lex_one. change (to_upper (c :: s)) with (to_upper_c c :: to_upper s).
  destruct (upper_char c) as (-> & Es & _ & Ed & Up & Lw).
  destruct (is_space c); [injection H as <- <-; reflexivity|].
  rewrite (upper_is c squote) by reflexivity. destruct (ceqb c squote).
  { exfalso. unfold lex_strlit in H. destruct d; match type of H with context [andthen ?m _] => destruct m as [[v r']|] end; cbn [andthen] in H; try discriminate H; injection H as <- <-; discriminate P. }
  rewrite (upper_is c (id_open d)) by (destruct d; reflexivity). destruct (ceqb c (id_open d)).
  { exfalso. destruct (lex_quoted (id_close d) s) as [[v r']|]; cbn [andthen] in H; [|discriminate H]. injection H as <- <-. discriminate P. }
  destruct (strip_prefix (B"x'") (c :: s)) as [s''|] eqn:X.
  { exfalso. destruct (cut_byte squote s'') as [[h r']|]; cbn [andthen] in H; [|discriminate H]. destruct (hex_decode h); cbn [andthen] in H; [|discriminate H]. injection H as <- <-. discriminate P. }
  assert (strip_prefix (B"x'") (to_upper_c c :: to_upper s) = None) as ->.
  { destruct (strip_prefix (B"x'") (to_upper_c c :: to_upper s)) as [s'|] eqn:E; [|reflexivity]. apply (proj1 (strip_prefix_Some _ _ _)) in E. injection E as E _. exfalso. revert E. chars c; congruence. }
  rewrite Es. destruct (ident_start c) eqn:I.
  { destruct (take_ident (c :: s)) as [w r'] eqn:T. injection H as <- <-. apply take_ident_upper in T. change (to_upper (c :: s)) with (to_upper_c c :: to_upper s) in T. rewrite T. reflexivity. }
  rewrite Ed. destruct (is_digit c) eqn:D.
  { destruct (take_number (c :: s)) as [w r'] eqn:T. injection H as <- <-. apply take_number_upper in T. change (to_upper (c :: s)) with (to_upper_c c :: to_upper s) in T. rewrite T. reflexivity. }
  destruct (is_lower c) eqn:L; [destruct (Lw eq_refl) as [Lw' _]; congruence|]. rewrite (Up eq_refl).
  assert (comment c (to_upper s) = comment c s) as ->.
  { destruct s as [|y s]; [reflexivity|]. cbn [comment to_upper map]. rewrite (upper_is y "-"), (upper_is y "*") by reflexivity. reflexivity. }
  destruct (comment c s); [discriminate H|]. injection H as <- <-. reflexivity.
Qed.
Lemma lex_upper d s ts : Lex d s ts -> forallb plain_token ts = true -> Lex d (to_upper s) (map up ts).
Proof.
  unfold Lex. intros H P. remember [] as e eqn:Ee. induction H as [s|s ts r ts' r' E H IH].
  - subst s. apply lexed_none.
  - rewrite forallb_app in P. apply andb_true_iff in P as [P1 P2]. rewrite map_app. exact (lexed_one d _ _ _ _ _ (lex_one_upper _ _ _ _ E P1) (IH Ee P2)).
Qed.
Lemma up_idem t : up (up t) = up t.
Proof. destruct t; cbn [up]; rewrite ?to_upper_idem; reflexivity. Qed.
Lemma up_map ts : map up (map up ts) = map up ts.
Proof. rewrite map_map. apply map_ext. exact up_idem. Qed.
Lemma ends_run_up stop t : ends_run stop (up t) = ends_run stop t.
Proof. destruct t; cbn [up]; unfold ends_run; cbn [is_word is_sym]; rewrite ?to_upper_idem; reflexivity. Qed.
Lemma deeper_up n t : deeper n (up t) = deeper n t.
Proof. destruct t; reflexivity. Qed.
Lemma whole_up stop n ts : whole stop n (map up ts) = whole stop n ts.
Proof. revert n. induction ts as [|t ts IH]; intros n; [reflexivity|]. cbn [map whole]. rewrite ends_run_up, deeper_up, IH. reflexivity. Qed.

Lemma begins_up ts : begins_type (map up ts) = begins_type ts.
Proof. destruct ts as [|t ts]; [reflexivity|]. cbn [map begins_type]. destruct t; cbn [up is_sym is_word]; rewrite ?to_upper_idem; reflexivity. Qed.
(** Names are not the words that constraints begin with. *)
Lemma lower_of_upper s : to_lower (to_upper s) = to_lower s.
Proof.
  induction s as [|c s IH]; [reflexivity|]. cbn [to_upper to_lower map] in *. unfold to_upper, to_lower in IH. rewrite IH. f_equal. clear. chars c; reflexivity.
Qed.
Lemma name_not_kw d t n : name_token d t = Some n -> d <> Other -> is_word (map B ["CONSTRAINT"; "PRIMARY"; "UNIQUE"; "CHECK"; "FOREIGN"; "DEFAULT"; "ON"]%string) t = false.
Proof.
  intros N D. destruct t as [w|w|w|w|w|c]; try reflexivity. cbn [name_token] in N. cbn [is_word]. match goal with |- ?b = false => destruct b eqn:M end; [|reflexivity]. exfalso.
  apply bmem_In in M. destruct (bmem (to_lower w) (reserved d)) eqn:R; [discriminate N|]. rewrite <- lower_of_upper in R.
  repeat (destruct M as [M|M]; [rewrite <- M in R; destruct d; vm_compute in R; congruence|]). exact M.
Qed.

Section Columns.
Context (d : dialect).
Lemma given_some s : given s = true <-> s <> [].
Proof. destruct s; cbn; split; congruence. Qed.
Lemma type_piece c : fits_type d c -> (computed d c = true -> col_domain c = [] /\ col_enum c = false) ->
  exists ts, Piece d (write_type d c) ts /\ whole clauses 0 ts = true /\ map up ts = type_of d c /\ begins_type ts = true.
Proof.
  unfold fits_type, write_type, type_of. intros F C. destruct (col_domain c) as [|x dm] eqn:Dm.
  - cbn [given is_empty negb]. destruct (computed d c) eqn:Co.
    + destruct (C eq_refl) as [_ ->]. exists []. split; [|repeat split; reflexivity]. assert (is d SQLServer && given (col_expr c) = true) as ->.
      { unfold computed in Co. destruct d; try discriminate Co. destruct (col_expr c); [discriminate Co|reflexivity]. }
      rewrite andb_false_r. apply piece_nil.
    + assert (is d SQLServer && given (col_expr c) = false) as ->.
      { unfold computed in Co. destruct d; try reflexivity. destruct (col_expr c); [reflexivity|discriminate Co]. }
      rewrite andb_true_r. destruct (col_type c) as [|y ty] eqn:Ty.
      * exists []. split; [|repeat split; reflexivity]. destruct (col_enum c); cbn [given is_empty negb opt]; [|apply piece_nil]. exact (piece_space d [] [] (lex_nil d)).
      * destruct F as [F [Bt E]]. destruct (fits_text _ _ _ F) as (L & _ & W). destruct (col_enum c).
        -- exists (text d (y :: ty)). split; [exact (piece_space d _ _ L)|]. split; [exact W|split; [reflexivity|exact Bt]].
        -- destruct E as [E|E]; [discriminate E|]. cbn [given is_empty negb opt]. exists (map up (text d (y :: ty))). split; [exact (piece_space d _ _ (lex_upper d _ _ L E))|].
           rewrite whole_up, up_map. split; [exact W|split; [reflexivity|rewrite begins_up; exact Bt]].
  - cbn [given is_empty negb]. destruct F as [F Bt]. destruct (fits_text _ _ _ F) as (L & _ & W). exists (text d (x :: dm)). split; [exact (piece_space d _ _ L)|]. split; [exact W|split; [reflexivity|exact Bt]].
Qed.

(** ** Clauses *)
(** Words that a clause begins with. *)
Definition starters : list bytes :=
  map B ["PRIMARY"; "AUTOINCREMENT"; "AUTO_INCREMENT"; "NOT"; "UNIQUE"; "GENERATED"; "IDENTITY"; "DEFAULT"; "COLLATE"; "AS"; "REFERENCES"]%string
  ++ match d with MySQL => [B"ON"] | _ => [] end.
Definition follows (more : toks) : Prop := at_end more = true \/ exists w r, more = Word w :: r /\ In (to_upper w) starters.
Lemma at_end_stops more stop : at_end more = true -> stops stop more.
Proof.
  intros H. apply stops_weaken. destruct more as [|t more]; [exact I|]. cbn [at_end stops] in *. unfold ends_run. destruct t; cbn [is_sym] in *; try discriminate H.
  cbn [is_word orb]. destruct (ceqb "," c), (ceqb ")" c), (ceqb ";" c); try reflexivity; discriminate H.
Qed.
Lemma starters_clauses w : In w starters -> bmem w clauses = true.
Proof. intros H. apply bmem_In. unfold starters in H. apply in_app_or in H as [H|H]; [|destruct d; cbn [In] in H; try contradiction; destruct H as [<-|[]]; vm_compute; tauto]. repeat (destruct H as [<-|H]; [vm_compute; tauto|]). destruct H. Qed.
Lemma follows_stops more : follows more -> stops clauses more.
Proof.
  intros [H|(w & r & -> & K)]; [exact (at_end_stops more clauses H)|]. cbn [stops]. unfold ends_run. cbn [is_word]. rewrite (starters_clauses _ K). reflexivity.
Qed.
Definition clause_toks (t : toks) (x : clause) : Prop :=
  (exists w t', t = Word w :: t' /\ In (to_upper w) starters) /\ forall more, follows more -> read_clause d (t ++ more) = Some (x, more).
Definition reads_as (s : bytes) (l : list clause) : Prop := exists tss, Piece d s (concat tss) /\ Forall2 clause_toks tss l.
Lemma reads_nil : reads_as [] [].
Proof. exists []. split; [apply piece_nil|constructor]. Qed.
Lemma reads_app a b l m : reads_as a l -> reads_as b m -> reads_as (a ++ b) (l ++ m).
Proof. intros (ts & P & F) (us & Q & G). exists (ts ++ us). rewrite concat_app. split; [apply piece_app; assumption|apply Forall2_app; assumption]. Qed.
Lemma reads_one s t x : Piece d s t -> clause_toks t x -> reads_as s [x].
Proof. intros P C. exists [t]. cbn [concat]. rewrite app_nil_r. split; [exact P|]. constructor; [exact C|constructor]. Qed.
Lemma reads_opt (b : bool) s x : (b = true -> reads_as s [x]) -> reads_as (opt b s) (if b then [x] else []).
Proof. intros H. destruct b; [exact (H eq_refl)|apply reads_nil]. Qed.

Fixpoint adds (c : column_def) (l : list clause) : option column_def :=
  match l with [] => Some c | x :: l' => let? c' := add_clause d c x in adds c' l' end.
Lemma adds_app c l m : adds c (l ++ m) = let? c' := adds c l in adds c' m.
Proof. revert c. induction l as [|x l IH]; intros c; [reflexivity|]. cbn [app adds]. destruct (add_clause d c x) as [c'|]; cbn [andthen]; [apply IH|reflexivity]. Qed.
Lemma clauses_follow tss l more : Forall2 clause_toks tss l -> follows more -> follows (concat tss ++ more).
Proof.
  intros F M. destruct F as [|t x tss l [(w & t' & -> & K) _] F]; [exact M|]. right. cbn [concat app]. eexists. eexists. split; [reflexivity|exact K].
Qed.
Lemma clauses_read tss l more : Forall2 clause_toks tss l -> at_end more = true -> forall n c c', List.length l <= n -> adds c l = Some c' ->
  read_clauses n d c (concat tss ++ more) = Some (c', more).
Proof.
  intros F M. induction F as [|t x tss l C F IH]; intros n c c' Ln A.
  - cbn [concat app]. injection A as <-. destruct n; cbn [read_clauses]; rewrite M; reflexivity.
  - destruct n as [|n]; [cbn in Ln; lia|]. cbn [concat read_clauses]. rewrite <- app_assoc.
    assert (at_end (t ++ concat tss ++ more) = false) as -> by (destruct C as [(w & t' & -> & _) _]; reflexivity).
    rewrite (proj2 C) by (apply (clauses_follow _ _ _ F); left; exact M). cbn [andthen]. cbn [adds] in A. destruct (add_clause d c x) as [c1|]; [|discriminate A].
    cbn [andthen] in *. apply IH; [cbn in Ln; lia|exact A].
Qed.
Lemma clauses_length tss l : Forall2 clause_toks tss l -> List.length l <= List.length (concat tss).
Proof.
  intros F. induction F as [|t x tss l [(w & t' & -> & _) _] F IH]; [cbn; lia|]. cbn [concat List.length app]. rewrite app_length. lia.
Qed.

End Columns.

(** Each clause. *)
Ltac clause_now := split; [eexists; eexists; split; [reflexivity|vm_compute; tauto]|intros more M; try reflexivity].
Lemma primary_toks d : clause_toks d [Word (B"PRIMARY"); Word (B"KEY")] CPrimary.
Proof. clause_now. Qed.
Lemma auto_toks d : In d [SQLite; MySQL] -> clause_toks d (match d with SQLite => [Word (B"AUTOINCREMENT")] | _ => [Word (B"AUTO_INCREMENT")] end) CAuto.
Proof. intros [<-|[<-|[]]]; clause_now. Qed.
Lemma notnull_toks d : clause_toks d [Word (B"NOT"); Word (B"NULL")] CNotNull.
Proof. destruct d; clause_now. Qed.
Lemma unique_toks d : clause_toks d [Word (B"UNIQUE")] CUnique.
Proof. destruct d; clause_now. Qed.
Lemma onupdate_toks d : d = MySQL -> clause_toks d [Word (B"ON"); Word (B"UPDATE"); Word (B"CURRENT_TIMESTAMP")] COnUpdate.
Proof. intros ->. clause_now. Qed.
Lemma default_toks d t ts : ends_run [] t = false -> whole clauses (deeper 0 t) ts = true -> clause_toks d (Word (B"DEFAULT") :: t :: ts) (CDefault (t :: ts)).
Proof.
  intros E W. clause_now. cbn [app]. assert (forall r, read_clause d (Word (B"DEFAULT") :: r) = let? (e, r) := operand clauses r in Some (CDefault e, r)) as -> by (intros r; destruct d; reflexivity).
  rewrite (operand_whole clauses t ts more E W (follows_stops d more M)). reflexivity.
Qed.
Lemma collate_toks d t n : name_token d t = Some n -> clause_toks d [Word (B"COLLATE"); t] (CCollate n).
Proof.
  intros N. clause_now. cbn [app]. assert (forall r, read_clause d (Word (B"COLLATE") :: r) = let? (n, r) := name d r in Some (CCollate n, r)) as -> by (intros r; destruct d; reflexivity).
  cbn [name]. rewrite N. reflexivity.
Qed.
Lemma kw_word k w r : to_lower w = to_lower k -> kw k (Word w :: r) = Some r.
Proof. intros E. cbn [kw]. rewrite E, beqb_refl. reflexivity. Qed.
Lemma kw_inv k ts r : kw k ts = Some r -> exists w, ts = Word w :: r /\ to_lower w = to_lower k.
Proof.
  destruct ts as [|[w|w|w|w|w|c] ts]; cbn [kw]; try discriminate. destruct (beqb_spec (to_lower w) (to_lower k)) as [E|]; [|discriminate]. intros [= <-]. exists w. split; [reflexivity|exact E].
Qed.
Lemma lower_upper a b : to_lower a = to_lower b -> to_upper a = to_upper b.
Proof.
  revert b. induction a as [|x a IH]; intros [|y b] H; try discriminate H; [reflexivity|]. cbn [to_lower map] in H. injection H as H1 H2. cbn [to_upper map]. f_equal; [|exact (IH b H2)].
  revert H1. clear. unfold to_lower_c, to_upper_c. intros H.
  assert (G : forall c, to_upper_c (to_lower_c c) = to_upper_c c) by (intros c; chars c; reflexivity).
  unfold to_upper_c, to_lower_c in G. rewrite <- (G x), <- (G y), H. reflexivity.
Qed.
Lemma kws_first k ks w r : beqb (to_lower w) (to_lower k) = false -> kws (k :: ks) (Word w :: r) = None.
Proof. intros H. cbn [kws kw]. rewrite H. reflexivity. Qed.
Lemma kw_not k w r : beqb (to_lower w) (to_lower k) = false -> kw k (Word w :: r) = None.
Proof. intros H. cbn [kw]. rewrite H. reflexivity. Qed.
(** An identity: its first word is that of no clause before it. *)
Lemma identity_toks d s : In d [Postgres; SQLServer] -> fits_identity d s -> s <> [] ->
  exists i, identity_of d s = Some i /\ Lex d s (text d s) /\ clause_toks d (text d s) (CIdentity i).
Proof.
  intros D F N. destruct (F N) as (ts & i & T & R & W). destruct (lex_text d s ts T) as [L E]. exists i. rewrite E in *. split; [unfold identity_of; rewrite E, R; reflexivity|]. split; [exact L|].
  assert (G : exists w r k, ts = Word w :: r /\ to_lower w = to_lower k /\ In k [B"GENERATED"; B"IDENTITY"] /\ forall more, stops clauses more -> read_identity d (ts ++ more) = Some (i, more)).
  { assert (X : forall r b, (let '(a, r') := run clauses 0 r in Some (Identity b a, r')) = Some (i, []) -> forall more, stops clauses more -> (let '(a, r') := run clauses 0 (r ++ more) in Some (Identity b a, r')) = Some (i, more)).
    { intros r b X more M. destruct (run clauses 0 r) as [a r'] eqn:Ra. injection X as Xi ->. assert (a = r). { clear -Ra. revert a Ra. generalize 0. induction r as [|t r IH]; intros n a; cbn [run]; [intros [= <-]; reflexivity|]. destruct ((n =? 0) && ends_run clauses t); [discriminate|]. destruct (run clauses (deeper n t) r) as [a' b'] eqn:R. intros [= <- ->]. f_equal. exact (IH _ _ R). }
      subst a. rewrite <- Xi in W. cbn [id_options] in W. rewrite (run_whole clauses 0 r more W M), Xi. reflexivity. }
    destruct D as [<-|[<-|[]]]; unfold read_identity in R.
    - destruct (kw (B"GENERATED") ts) as [r|] eqn:K; [|discriminate R]. cbn [andthen] in R. apply kw_inv in K as (w & -> & Kw). exists w, r, (B"GENERATED"). split; [reflexivity|]. split; [exact Kw|]. split; [left; reflexivity|].
      intros more M. unfold read_identity. cbn [app]. rewrite (kw_word _ _ _ Kw). cbn [andthen].
      destruct (kws [B"ALWAYS"; B"AS"; B"IDENTITY"] r) as [r1|] eqn:K1.
      + assert (kws [B"ALWAYS"; B"AS"; B"IDENTITY"] (r ++ more) = Some (r1 ++ more)) as ->.
        { clear -K1. cbn [kws] in *. destruct (kw (B"ALWAYS") r) as [r2|] eqn:Ka; [|discriminate K1]. cbn [andthen] in K1. destruct (kw (B"AS") r2) as [r3|] eqn:Kb; [|discriminate K1]. cbn [andthen] in K1. destruct (kw (B"IDENTITY") r3) as [r4|] eqn:Kc; [|discriminate K1]. cbn [andthen] in K1. injection K1 as ->.
          apply kw_inv in Ka as (w1 & -> & E1), Kb as (w2 & -> & E2), Kc as (w3 & -> & E3). cbn [app]. rewrite (kw_word _ _ _ E1). cbn [andthen]. rewrite (kw_word _ _ _ E2). cbn [andthen]. rewrite (kw_word _ _ _ E3). reflexivity. }
        apply X; assumption.
      + destruct (kws [B"BY"; B"DEFAULT"; B"AS"; B"IDENTITY"] r) as [r1|] eqn:K2; [|discriminate R]. cbn [andthen] in R.
        assert (kws [B"ALWAYS"; B"AS"; B"IDENTITY"] (r ++ more) = None /\ kws [B"BY"; B"DEFAULT"; B"AS"; B"IDENTITY"] (r ++ more) = Some (r1 ++ more)) as [-> ->].
        { clear -K2. cbn [kws] in *. destruct (kw (B"BY") r) as [r2|] eqn:Ka; [|discriminate K2]. cbn [andthen] in K2. destruct (kw (B"DEFAULT") r2) as [r3|] eqn:Kb; [|discriminate K2]. cbn [andthen] in K2. destruct (kw (B"AS") r3) as [r4|] eqn:Kc; [|discriminate K2]. cbn [andthen] in K2. destruct (kw (B"IDENTITY") r4) as [r5|] eqn:Kd; [|discriminate K2]. cbn [andthen] in K2. injection K2 as ->.
          apply kw_inv in Ka as (w1 & -> & E1), Kb as (w2 & -> & E2), Kc as (w3 & -> & E3), Kd as (w4 & -> & E4). cbn [app]. split; [rewrite kw_not by (rewrite E1; reflexivity); reflexivity|].
          rewrite (kw_word _ _ _ E1). cbn [andthen]. rewrite (kw_word _ _ _ E2). cbn [andthen]. rewrite (kw_word _ _ _ E3). cbn [andthen]. rewrite (kw_word _ _ _ E4). reflexivity. }
        cbn [andthen]. apply X; assumption.
    - destruct (kw (B"IDENTITY") ts) as [r|] eqn:K; [|discriminate R]. cbn [andthen] in R. apply kw_inv in K as (w & -> & Kw). exists w, r, (B"IDENTITY"). split; [reflexivity|]. split; [exact Kw|]. split; [right; left; reflexivity|].
      intros more M. unfold read_identity. cbn [app]. rewrite (kw_word _ _ _ Kw). cbn [andthen]. apply X; assumption. }
  destruct G as (w & r & k & -> & Kw & Ik & G). split.
  - exists w, r. split; [reflexivity|]. rewrite (lower_upper _ _ Kw). apply in_or_app. left. destruct Ik as [<-|[<-|[]]]; vm_compute; tauto.
  - intros more M. unfold read_clause. rewrite (G more (follows_stops d more M)). cbn [app].
    rewrite kws_first by (rewrite Kw; destruct Ik as [<-|[<-|[]]]; reflexivity).
    assert ((match d with MySQL => kw (B"AUTO_INCREMENT") (Word w :: r ++ more) | SQLite => kw (B"AUTOINCREMENT") (Word w :: r ++ more) | _ => None end) = None) as ->.
    { destruct D as [<-|[<-|[]]]; reflexivity. }
    rewrite kws_first by (rewrite Kw; destruct Ik as [<-|[<-|[]]]; reflexivity). rewrite kw_not by (rewrite Kw; destruct Ik as [<-|[<-|[]]]; reflexivity). reflexivity.
Qed.

(** ** Expressions in brackets *)
Lemma wrapped_is s : wrapped_in_brackets s = is_expression s.
Proof.
  unfold wrapped_in_brackets, is_expression, begins_with, last_byte. destruct s as [|c s]; [reflexivity|]. cbn [hd_error]. destruct (rev (c :: s)) as [|x r]; [|reflexivity].
  cbn [hd_error]. rewrite andb_false_r. reflexivity.
Qed.
Lemma bracketed_lex d s : bracketed d s -> s <> [] ->
  Lex d (wrap_brackets s) (Sym "(" :: inner (text d s) ++ [Sym ")"]) /\ whole [] 0 (inner (text d s)) = true /\ inner (text d s) <> [].
Proof.
  unfold bracketed. intros H N. assert (E : wrap_brackets s = if is_expression s then s else B"(" ++ s ++ B")").
  { unfold wrap_brackets. rewrite wrapped_is. destruct s; [congruence|reflexivity]. }
  rewrite E. destruct (is_expression s).
  - destruct H as (ts & e & T & P). destruct (lex_text d s ts T) as [L X]. rewrite X in *. unfold inner. rewrite P. destruct (parens_inv ts e P) as (-> & W & Ne). auto.
  - destruct H as [F I]. rewrite I. destruct (fits_text _ _ _ F) as (L & Nt & W). split; [|split; assumption].
    apply (lex_fixed d (B"(") _ [Sym "("] _ ltac:(fix_text)). apply (lex_app d _ _ _ _ L); [lex_now|ending].
Qed.
Definition generated_text (d : dialect) (c : column) : toks :=
  let e := Sym "(" :: inner (text d (col_expr c)) ++ [Sym ")"] in
  match d with
  | MySQL => Word (B"AS") :: e ++ (if col_stored c then [Word (B"STORED")] else [])
  | SQLServer => Word (B"AS") :: e ++ (if col_stored c then [Word (B"PERSISTED")] else [])
  | _ => Word (B"GENERATED") :: Word (B"ALWAYS") :: Word (B"AS") :: e ++ [Word (B"STORED")]
  end.
Lemma generated_lex d c : d <> Other -> bracketed d (col_expr c) -> col_expr c <> [] -> Piece d (write_generated d c) (generated_text d c).
Proof.
  intros D Br N. destruct (bracketed_lex d _ Br N) as (L & _ & _). unfold write_generated, generated_text. rewrite (proj2 (given_some _) N). cbn [opt].
  assert (Ls : forall (b : bool) w, Piece d (opt b (B" " ++ w)) (if b then text d w else []) \/ tokens d w = None).
  { intros b w. destruct (tokens d w) as [ts|] eqn:T; [left|right; reflexivity]. apply piece_opt. intros _. apply piece_space. exact (proj1 (lex_text d w ts T)). }
  destruct d; try congruence; (split; [|ending]).
  - apply (lex_fixed SQLite (B" GENERATED ALWAYS AS ") _ [_; _; _] _ ltac:(fix_text)). apply (lex_app SQLite _ _ _ _ L); [lex_now|ending].
  - apply (lex_fixed Postgres (B" GENERATED ALWAYS AS ") _ [_; _; _] _ ltac:(fix_text)). apply (lex_app Postgres _ _ _ _ L); [lex_now|ending].
  - apply (lex_fixed MySQL (B" AS ") _ [_] _ ltac:(fix_text)). apply (piece_after MySQL _ _ _ _ L). destruct (Ls (col_stored c) (B"STORED")) as [P|P]; [exact P|discriminate P].
  - apply (lex_fixed SQLServer (B" AS ") _ [_] _ ltac:(fix_text)). apply (piece_after SQLServer _ _ _ _ L). destruct (Ls (col_stored c) (B"PERSISTED")) as [P|P]; [exact P|discriminate P].
Qed.
Lemma follows_not d more k : follows d more -> In k [B"STORED"; B"PERSISTED"; B"ON"; B"DEFERRABLE"] -> (k = B"ON" -> d <> MySQL) -> kw k more = None.
Proof.
  intros F Ik Hon. destruct (kw k more) as [r|] eqn:K; [|reflexivity]. exfalso. apply kw_inv in K as (w & -> & K). apply lower_upper in K. destruct F as [F|(w' & r' & [= <- <-] & F)]; [discriminate F|].
  rewrite K in F. unfold starters in F. apply in_app_or in F as [F|F].
  - destruct Ik as [<-|[<-|[<-|[<-|[]]]]]; vm_compute in F; repeat (destruct F as [F|F]; [discriminate F|]); exact F.
  - destruct d; cbn [In] in F; try contradiction. destruct F as [F|[]]. destruct Ik as [<-|[<-|[<-|[<-|[]]]]]; try (vm_compute in F; discriminate F). apply Hon; reflexivity.
Qed.
Lemma generated_toks d c : d <> Other -> bracketed d (col_expr c) -> col_expr c <> [] -> (In d [SQLite; Postgres] -> col_stored c = true) ->
  clause_toks d (generated_text d c) (CGenerated (inner (text d (col_expr c))) (col_stored c)).
Proof.
  intros D Br N St. destruct (bracketed_lex d _ Br N) as (_ & W & Ne). unfold generated_text. set (e := inner (text d (col_expr c))) in *. clearbody e. split.
  - destruct d; eexists; eexists; (split; [reflexivity|vm_compute; tauto]).
  - intros more M.
    assert (H : forall k, In k [B"STORED"; B"PERSISTED"; B"DEFERRABLE"] -> has [k] ((if col_stored c then [Word k] else []) ++ more) = (col_stored c, more)).
    { intros k Ik. destruct (col_stored c); cbn [app]; unfold has; cbn [kws].
      - cbn [kw]. rewrite beqb_refl. reflexivity.
      - rewrite (follows_not d more k M); [reflexivity| |].
        + destruct Ik as [<-|[<-|[<-|[]]]]; vm_compute; tauto.
        + intros ->. exfalso. revert Ik. clear. vm_compute. intros [H|[H|[H|[]]]]; discriminate H. }
    assert (P : forall r, parens expression (Sym "(" :: (e ++ [Sym ")"]) ++ r) = Some (e, r)).
    { intros r. rewrite <- app_assoc. apply parens_whole; assumption. }
    assert (G : read_generated d (match d with
      | MySQL => Word (B"AS") :: (Sym "(" :: e ++ [Sym ")"]) ++ (if col_stored c then [Word (B"STORED")] else [])
      | SQLServer => Word (B"AS") :: (Sym "(" :: e ++ [Sym ")"]) ++ (if col_stored c then [Word (B"PERSISTED")] else [])
      | _ => Word (B"GENERATED") :: Word (B"ALWAYS") :: Word (B"AS") :: (Sym "(" :: e ++ [Sym ")"]) ++ [Word (B"STORED")]
      end ++ more) = Some ((e, col_stored c), more)).
    { destruct d; try congruence; unfold read_generated; cbn [app].
      - rewrite <- app_assoc. match goal with |- context [kws ?k (_ :: _ :: _ :: ?r)] => change (kws k (Word (B"GENERATED") :: Word (B"ALWAYS") :: Word (B"AS") :: r)) with (Some r) end. cbn [andthen]. rewrite P. cbn [andthen app].
        match goal with |- context [kw ?k (_ :: ?r)] => change (kw k (Word (B"STORED") :: r)) with (Some r) end. rewrite (St ltac:(vm_compute; tauto)). reflexivity.
      - rewrite <- app_assoc. match goal with |- context [kws ?k (_ :: _ :: _ :: ?r)] => change (kws k (Word (B"GENERATED") :: Word (B"ALWAYS") :: Word (B"AS") :: r)) with (Some r) end. cbn [andthen]. rewrite P. cbn [andthen app].
        match goal with |- context [kw ?k (_ :: ?r)] => change (kw k (Word (B"STORED") :: r)) with (Some r) end. rewrite (St ltac:(vm_compute; tauto)). reflexivity.
      - rewrite <- app_assoc. match goal with |- context [kw ?k (_ :: ?r)] => change (kw k (Word (B"AS") :: r)) with (Some r) end. cbn [andthen]. rewrite P. cbn [andthen]. rewrite (H (B"STORED") ltac:(vm_compute; tauto)). reflexivity.
      - rewrite <- app_assoc. match goal with |- context [kw ?k (_ :: ?r)] => change (kw k (Word (B"AS") :: r)) with (Some r) end. cbn [andthen]. rewrite P. cbn [andthen]. rewrite (H (B"PERSISTED") ltac:(vm_compute; tauto)). reflexivity. }
    destruct d; try congruence; cbn [app] in *.
    all: match goal with |- read_clause ?d ?ts = _ => change (read_clause d ts) with (match read_generated d ts with Some ((e, b), r) => Some (CGenerated e b, r) | None => let? (x, r) := read_refers d ts in Some (CRefers x, r) end) end.
    all: rewrite G; reflexivity.
Qed.

(** ** References *)
Definition rule_text (w s : bytes) : toks := if given s && negb (beqb s NO_ACTION) then Word (B"ON") :: Word w :: text Other s else [].
Lemma rules_piece d u v : fits_rule u -> fits_rule v -> Piece d (write_rules u v) (rule_text (B"UPDATE") u ++ rule_text (B"DELETE") v).
Proof.
  intros U V. unfold write_rules. apply piece_app; unfold rule_text; apply piece_opt; intros _.
  - destruct U as [<-|[<-|[<-|[<-|[<-|[<-|[]]]]]]]; piece_now.
  - destruct V as [<-|[<-|[<-|[<-|[<-|[<-|[]]]]]]]; piece_now.
Qed.
Definition no_on (more : toks) : Prop := kw (B"ON") more = None.
Lemma rule_read w s more : In w [B"UPDATE"; B"DELETE"] -> fits_rule s -> (kws [B"ON"; w] more = None) -> read_on w (rule_text w s ++ more) = Some (rule_of s, more).
Proof.
  intros Iw F M. destruct F as [<-|[<-|[<-|[<-|[<-|[<-|[]]]]]]]; unfold read_on.
  - change (rule_text w (B"") ++ more) with more. rewrite M. reflexivity.
  - change (rule_text w (B"NO ACTION") ++ more) with more. rewrite M. reflexivity.
  - destruct Iw as [<-|[<-|[]]]; reflexivity.
  - destruct Iw as [<-|[<-|[]]]; reflexivity.
  - destruct Iw as [<-|[<-|[]]]; reflexivity.
  - destruct Iw as [<-|[<-|[]]]; reflexivity.
Qed.
Lemma rules_read u v more : fits_rule u -> fits_rule v -> no_on more -> read_rules (rule_text (B"UPDATE") u ++ rule_text (B"DELETE") v ++ more) = Some ((rule_of u, rule_of v), more).
Proof.
  intros U V M. unfold read_rules.
  assert (K : forall w, kws [B"ON"; w] more = None) by (intros w; cbn [kws]; rewrite M; reflexivity).
  rewrite (rule_read (B"UPDATE") u (rule_text (B"DELETE") v ++ more)); [|left; reflexivity|exact U|].
  - cbn [andthen]. rewrite (rule_read (B"DELETE") v more); [reflexivity|right; left; reflexivity|exact V|apply K].
  - unfold rule_text. destruct (given v && negb (beqb v NO_ACTION)); [reflexivity|apply K].
Qed.
Definition defer_text (d : dialect) (a b : bool) : toks :=
  if a && (is d SQLite || is d Postgres) then Word (B"DEFERRABLE") :: (if b then [Word (B"INITIALLY"); Word (B"DEFERRED")] else []) else [].
Lemma defer_piece d a b : Piece d (write_deferrable d a b) (defer_text d a b).
Proof.
  unfold write_deferrable, defer_text. apply piece_opt. intros _. destruct b; piece_now.
Qed.
Definition no_defer (more : toks) : Prop := kw (B"DEFERRABLE") more = None /\ kw (B"INITIALLY") more = None.
Lemma defer_read d a b more : no_defer more -> read_deferrable (defer_text d a b ++ more) = Some (defer_of d a b, more).
Proof.
  intros [M1 M2]. unfold read_deferrable, defer_text, defer_of. assert (has_defer d = is d SQLite || is d Postgres) as -> by (destruct d; reflexivity).
  destruct a; [|rewrite andb_false_r; cbn [andb app]; unfold has; cbn [kws]; rewrite M1; reflexivity]. cbn [andb].
  destruct (is d SQLite || is d Postgres); [|cbn [andb app]; unfold has; cbn [kws]; rewrite M1; reflexivity].
  destruct b; cbn [app andb]; unfold has; [reflexivity|]. cbn [kws]. match goal with |- context [kw ?k (_ :: ?r)] => change (kw k (Word (B"DEFERRABLE") :: r)) with (Some r) end. cbn [andthen]. rewrite M2. reflexivity.
Qed.

Definition refers_text (d : dialect) (schema : bytes) (r : reference) : toks :=
  Word (B"REFERENCES") :: qtoks d (if beqb (rf_schema r) schema then [] else rf_schema r, rf_table r) ++ Sym "(" :: [ntok d (rf_column r)] ++ Sym ")"
    :: rule_text (B"UPDATE") (rf_update r) ++ rule_text (B"DELETE") (rf_delete r) ++ defer_text d (rf_deferrable r) (rf_deferred r).
Lemma refers_lex d schema r : writable_reference d r -> given (rf_table r) && given (rf_column r) = true -> Piece d (write_references d schema r) (refers_text d schema r).
Proof.
  intros (_ & _ & _ & U & V) G. unfold write_references, refers_text. rewrite G. cbn [opt]. split; [|ending].
  apply (lex_fixed d (B" REFERENCES ") _ [_] _ ltac:(fix_text)).
  assert (E : opt (given (rf_schema r) && negb (beqb (rf_schema r) schema)) (quote_identifier d (rf_schema r) ++ B".") ++ quote_identifier d (rf_table r) = qtext d (if beqb (rf_schema r) schema then [] else rf_schema r, rf_table r)).
  { unfold qtext. cbn [fst snd]. destruct (beqb (rf_schema r) schema); cbn [negb]; rewrite ?andb_false_r, ?andb_true_r; reflexivity. }
  rewrite app_assoc, E. apply (lex_app d _ _ _ _ (lex_qname d _)); [|ending].
  apply (lex_fixed d (B" (") _ [_] _ ltac:(fix_text)). apply (lex_app d _ _ _ _ (lex_name d _)); [|ending].
  apply (lex_fixed d (B")") _ [_] _ ltac:(fix_text)). rewrite app_assoc. exact (proj1 (piece_app d _ _ _ _ (rules_piece d _ _ U V) (defer_piece d _ _))).
Qed.
Lemma refers_toks schema r : writable_reference SQLite r -> given (rf_table r) && given (rf_column r) = true ->
  exists x, refers_of SQLite schema r = Some x /\ clause_toks SQLite (refers_text SQLite schema r) (CRefers x).
Proof.
  intros (Ps & Pt & Pc & U & V) G. unfold refers_of. destruct (rf_table r) as [|x t] eqn:Et; [discriminate G|]. destruct (rf_column r) as [|y c] eqn:Ec; [discriminate G|]. rewrite <- Et, <- Ec. rewrite <- Et in Pt. rewrite <- Ec in Pc.
  eexists. split; [reflexivity|]. split; [eexists; eexists; split; [reflexivity|vm_compute; tauto]|]. intros more M.
  assert (No : no_on more) by (apply (follows_not SQLite more); [exact M|vm_compute; tauto|discriminate]).
  assert (Nd : no_defer more).
  { split; [apply (follows_not SQLite more); [exact M|vm_compute; tauto|discriminate]|]. destruct (kw (B"INITIALLY") more) as [m|] eqn:K; [|reflexivity]. exfalso. apply kw_inv in K as (w & -> & K). apply lower_upper in K.
    destruct M as [M|(w' & r' & [= <- <-] & M)]; [discriminate M|]. rewrite K in M. vm_compute in M. repeat (destruct M as [M|M]; [discriminate M|]). exact M. }
  unfold refers_text. cbn [app]. rewrite <- !app_assoc. cbn [app].
  match goal with |- read_clause SQLite (_ :: ?ts) = _ => change (read_clause SQLite (Word (B"REFERENCES") :: ts)) with (let? (x, r) := read_refers SQLite (Word (B"REFERENCES") :: ts) in Some (CRefers x, r)) end.
  unfold read_refers. match goal with |- context [kw ?k (_ :: ?r)] => change (kw k (Word (B"REFERENCES") :: r)) with (Some r) end. cbn [andthen].
  rewrite read_path; [|split; cbn [fst snd]; [destruct (beqb (rf_schema r) schema); [split; [intros [H|[H|[H|[H|[H|[]]]]]]; discriminate H|intros (a & z & b & E); destruct a; discriminate E]|exact Ps]|exact Pt]|reflexivity].
  cbn [andthen]. match goal with |- context [parens _ (_ :: ?t :: _ :: ?m)] => change (Sym "(" :: t :: Sym ")" :: m) with (Sym "(" :: ntoks SQLite [rf_column r] ++ Sym ")" :: m) end.
  rewrite read_names_in; [|split; [discriminate|intros n [<-|[]]; exact Pc]]. cbn [andthen]. rewrite <- !app_assoc. rewrite rules_read; [|exact U|exact V|].
  - cbn [andthen]. rewrite defer_read by exact Nd. reflexivity.
  - unfold no_on, defer_text. destruct (rf_deferrable r); [reflexivity|exact No].
Qed.

(** ** The whole definition *)
Definition some {A C} (f : A -> C) (o : option A) : list C := match o with Some x => [f x] | None => [] end.
Lemma adds_some d c l c' m r : adds d c l = Some c' -> adds d c' m = r -> adds d c (l ++ m) = r.
Proof. intros H <-. rewrite adds_app, H. reflexivity. Qed.
Lemma adds_all d m : (cd_generated m <> None -> may_generate d (ColumnDef (cd_name m) (cd_type m) (cd_primary m) (cd_auto m) (cd_notnull m) (cd_unique m) (cd_identity m) (cd_default m) (cd_onupdate m) (cd_collation m) None None) = true) ->
  (d = SQLServer -> cd_collation m <> None -> cd_default m = None) ->
  adds d (ColumnDef (cd_name m) (cd_type m) false false false false None None false None None None)
    ((if cd_primary m then [CPrimary] else []) ++ (if cd_auto m then [CAuto] else []) ++ (if cd_notnull m then [CNotNull] else []) ++ (if cd_unique m then [CUnique] else [])
     ++ some CIdentity (cd_identity m) ++ some CDefault (cd_default m) ++ (if cd_onupdate m then [COnUpdate] else []) ++ some CCollate (cd_collation m)
     ++ some (fun '(e, b) => CGenerated e b) (cd_generated m) ++ some CRefers (cd_refers m)) = Some m.
Proof.
  destruct m as [n ty p a nn u i e o co g rf]. cbn [cd_name cd_type cd_primary cd_auto cd_notnull cd_unique cd_identity cd_default cd_onupdate cd_collation cd_generated cd_refers]. intros G Gc.
  apply (adds_some d _ _ (ColumnDef n ty p false false false None None false None None None)); [destruct p; reflexivity|].
  apply (adds_some d _ _ (ColumnDef n ty p a false false None None false None None None)); [destruct a; reflexivity|].
  apply (adds_some d _ _ (ColumnDef n ty p a nn false None None false None None None)); [destruct nn; reflexivity|].
  apply (adds_some d _ _ (ColumnDef n ty p a nn u None None false None None None)); [destruct u; reflexivity|].
  apply (adds_some d _ _ (ColumnDef n ty p a nn u i None false None None None)); [destruct i; reflexivity|].
  apply (adds_some d _ _ (ColumnDef n ty p a nn u i e false None None None)); [destruct e; reflexivity|].
  apply (adds_some d _ _ (ColumnDef n ty p a nn u i e o None None None)); [destruct o; reflexivity|].
  apply (adds_some d _ _ (ColumnDef n ty p a nn u i e o co None None)).
  { destruct co as [y|]; [|reflexivity]. cbn [some adds add_clause]. assert (may_collate d (ColumnDef n ty p a nn u i e o None None None) = true) as ->; [|reflexivity]. unfold may_collate. cbn [cd_default]. destruct d; try reflexivity. rewrite (Gc eq_refl ltac:(discriminate)). reflexivity. }
  apply (adds_some d _ _ (ColumnDef n ty p a nn u i e o co g None)); [|destruct rf; reflexivity].
  destruct g as [(y & b)|]; [|reflexivity]. cbn [some adds add_clause]. rewrite (G ltac:(discriminate)). reflexivity.
Qed.
Lemma may_generated d coll level r c : writable_column d coll level r c -> let m := column_meant d coll level r c in
  cd_generated m <> None -> may_generate d (ColumnDef (cd_name m) (cd_type m) (cd_primary m) (cd_auto m) (cd_notnull m) (cd_unique m) (cd_identity m) (cd_default m) (cd_onupdate m) (cd_collation m) None None) = true.
Proof.
  intros Hw m G. assert (N : col_expr c <> []) by (intros N; apply G; unfold m; cbn [column_meant cd_generated]; unfold generated_of; rewrite N; reflexivity).
  pose proof (wc_generated _ _ _ _ _ Hw N) as [_ Fg]. assert (Lv : d <> SQLite -> level = false) by (intros Nd; destruct level; [destruct (wc_level _ _ _ _ _ Hw eq_refl) as [X _]; contradiction|reflexivity]).
  clear G. unfold m. clear m. destruct d; try reflexivity; specialize (Lv ltac:(discriminate)); subst level; unfold column_meant, may_generate; cbn.
  - destruct Fg as (Fa & Fn & Fd & Fo). rewrite Fa, Fn, Fd, Fo, !andb_false_r. reflexivity.
  - destruct Fg as (Fi & Fd & Fc & Fm & Fe). unfold type_of, computed. destruct (col_expr c) as [|x e]; [congruence|]. rewrite Fi, Fd, Fc, Fm, !andb_false_r.
    destruct (beqb [] coll); reflexivity.
Qed.
Section Whole.
Context (d : dialect) (coll : bytes) (level : bool) (r : reference) (c : column).
Hypothesis Hd : d <> Other.
Hypothesis Hw : writable_column d coll level r c.
Let m := column_meant d coll level r c.

Lemma reads_primary : reads_as d (opt (col_pkey c && (level || is d SQLite)) (B" PRIMARY KEY")) (if cd_primary m then [CPrimary] else []).
Proof.
  unfold m. cbn [column_meant cd_primary]. assert ((match d with SQLite => true | _ => false end) = is d SQLite) as -> by (destruct d; reflexivity).
  apply reads_opt. intros _. apply (reads_one d _ [Word (B"PRIMARY"); Word (B"KEY")]); [piece_now|apply primary_toks].
Qed.
Lemma reads_auto : reads_as d (opt (col_autoincrement c) (match d with SQLite => B" AUTOINCREMENT" | MySQL => B" AUTO_INCREMENT" | _ => [] end)) (if cd_auto m then [CAuto] else []).
Proof.
  unfold m. cbn [column_meant cd_auto]. destruct (col_autoincrement c); cbn [andb]; [|apply reads_nil].
  destruct d; try apply reads_nil.
  - apply (reads_one SQLite _ [Word (B"AUTOINCREMENT")]); [split; [apply lex_tokens; vm_compute; reflexivity|ending]|]. exact (auto_toks SQLite (or_introl eq_refl)).
  - apply (reads_one MySQL _ [Word (B"AUTO_INCREMENT")]); [split; [apply lex_tokens; vm_compute; reflexivity|ending]|]. exact (auto_toks MySQL (or_intror (or_introl eq_refl))).
Qed.
Lemma computed_is : computed d c = is d SQLServer && given (col_expr c).
Proof. unfold computed. destruct d; try reflexivity. destruct (col_expr c); reflexivity. Qed.
Lemma reads_notnull : reads_as d (opt (col_notnull c && negb (is d SQLServer && given (col_expr c))) (B" NOT NULL")) (if cd_notnull m then [CNotNull] else []).
Proof.
  unfold m. cbn [column_meant cd_notnull]. rewrite computed_is. apply reads_opt. intros _. apply (reads_one d _ [Word (B"NOT"); Word (B"NULL")]); [piece_now|apply notnull_toks].
Qed.
Lemma reads_unique : reads_as d (opt (col_unique c && level) (B" UNIQUE")) (if cd_unique m then [CUnique] else []).
Proof.
  unfold m. cbn [column_meant cd_unique]. apply reads_opt. intros _. apply (reads_one d _ [Word (B"UNIQUE")]); [piece_now|apply unique_toks].
Qed.
Lemma reads_identity : reads_as d (opt (given (col_identity c) && (is d Postgres || is d SQLServer)) (B" " ++ col_identity c)) (some CIdentity (cd_identity m)).
Proof.
  unfold m. cbn [column_meant cd_identity]. destruct (is d Postgres || is d SQLServer) eqn:D; [|rewrite andb_false_r; destruct d; try discriminate D; apply reads_nil].
  assert (Id : In d [Postgres; SQLServer]) by (destruct d; try discriminate D; vm_compute; tauto).
  assert ((match d with Postgres | SQLServer => identity_of d (col_identity c) | _ => None end) = identity_of d (col_identity c)) as -> by (destruct d; try discriminate D; reflexivity).
  rewrite andb_true_r. destruct (given (col_identity c)) eqn:G.
  - apply given_some in G. pose proof (wc_identity _ _ _ _ _ Hw) as F. assert (F' : fits_identity d (col_identity c)) by (destruct d; try discriminate D; exact F).
    destruct (identity_toks d _ Id F' G) as (i & -> & L & C). cbn [some opt]. exact (reads_one d _ _ _ (piece_space d _ _ L) C).
  - destruct (col_identity c) as [|x y]; [|discriminate G]. assert (identity_of d [] = None) as -> by (unfold identity_of; destruct d; reflexivity). apply reads_nil.
Qed.
Lemma reads_default : reads_as d (opt (given (col_default c)) (B" DEFAULT " ++ col_default c)) (some CDefault (cd_default m)).
Proof.
  unfold m. cbn [column_meant cd_default]. pose proof (wc_default _ _ _ _ _ Hw) as F. destruct (col_default c) as [|x e]; [apply reads_nil|]. destruct (F ltac:(discriminate)) as (t & ts & T & E & W).
  cbn [given is_empty negb opt some]. destruct (lex_text d _ _ T) as [L X]. rewrite X in *. apply (reads_one d _ (Word (B"DEFAULT") :: t :: ts)); [|apply default_toks; assumption].
  exact (piece_fixed d (B" DEFAULT ") _ [_] _ ltac:(fix_text) ltac:(discriminate) ltac:(ending) L).
Qed.
Lemma reads_onupdate : reads_as d (opt (col_onupdate c && is d MySQL) (B" ON UPDATE CURRENT_TIMESTAMP")) (if cd_onupdate m then [COnUpdate] else []).
Proof.
  unfold m. cbn [column_meant cd_onupdate]. assert ((match d with MySQL => true | _ => false end) = is d MySQL) as -> by (destruct d; reflexivity).
  apply reads_opt. intros E. apply andb_true_iff in E as [_ E]. assert (D : d = MySQL) by (destruct d; try discriminate E; reflexivity).
  apply (reads_one d _ [Word (B"ON"); Word (B"UPDATE"); Word (B"CURRENT_TIMESTAMP")]); [piece_now|exact (onupdate_toks d D)].
Qed.
Lemma quoted_lex s : plain_name Postgres s -> Lex Postgres (dquote :: escape_quote dquote s ++ [dquote]) [Quoted s].
Proof.
  intros [_ P]. apply lexed_step. unfold lex_one. change (is_space dquote) with false. change (ceqb dquote squote) with false. change (ceqb dquote (id_open Postgres)) with true. cbv iota.
  change (id_close Postgres) with dquote. pose proof (lex_escape dquote s [] ltac:(discriminate)) as L. rewrite L. cbn [andthen]. rewrite (proj2 (collapse_id_iff dquote s)); [reflexivity|exact P].
Qed.
Lemma reads_collation : reads_as d (write_collate d coll (col_collation c)) (some CCollate (cd_collation m)).
Proof.
  unfold m, write_collate. cbn [column_meant cd_collation]. pose proof (wc_collation _ _ _ _ _ Hw) as F. destruct (beqb_spec (col_collation c) coll) as [_|Nc]; cbn [negb]; [rewrite andb_false_r; apply reads_nil|].
  rewrite andb_true_r. unfold if_given. destruct (col_collation c) as [|x y] eqn:E; [apply reads_nil|]. rewrite <- E in *. cbn [given is_empty negb opt some]. specialize (F ltac:(rewrite E; discriminate) Nc).
  assert (G : given (col_collation c) = true) by (rewrite E; reflexivity). rewrite G. cbn [opt].
  assert (T : exists t, Lex d (match d with Postgres => dquote :: escape_quote dquote (col_collation c) ++ [dquote] | _ => col_collation c end) [t] /\ name_token d t = Some (col_collation c)).
  { destruct d; try (destruct F as (t & T & N); exists t; split; [apply lex_tokens; exact T|exact N]); try (destruct F as ((t & T & N) & _); exists t; split; [apply lex_tokens; exact T|exact N]). exists (Quoted (col_collation c)). split; [exact (quoted_lex _ F)|reflexivity]. }
  destruct T as (t & L & N). apply (reads_one d _ [Word (B"COLLATE"); t]); [|apply collate_toks; exact N].
  exact (piece_fixed d (B" COLLATE ") _ [_] _ ltac:(fix_text) ltac:(discriminate) ltac:(ending) L).
Qed.
Lemma reads_generated : reads_as d (write_generated d c) (some (fun '(e, b) => CGenerated e b) (cd_generated m)).
Proof.
  unfold m. cbn [column_meant cd_generated]. unfold generated_of. pose proof (wc_generated _ _ _ _ _ Hw) as F. destruct (col_expr c) as [|x e] eqn:E; [unfold write_generated; rewrite E; apply reads_nil|].
  rewrite <- E in *. assert (N : col_expr c <> []) by (rewrite E; discriminate). destruct (F N) as [Br Fd]. cbn [some].
  apply (reads_one d _ _ _ (generated_lex d c Hd Br N)). apply generated_toks; try assumption. intros I. destruct I as [<-|[<-|[]]]; exact Fd.
Qed.
Lemma reads_references : reads_as d (opt level (write_references d (col_schema c) r)) (some CRefers (cd_refers m)).
Proof.
  unfold m. cbn [column_meant cd_refers]. destruct level eqn:Lv; [|apply reads_nil]. destruct (wc_level _ _ _ _ _ Hw eq_refl) as [Ds Wr]. cbn [opt].
  destruct (given (rf_table r) && given (rf_column r)) eqn:G.
  - pose proof (refers_lex d (col_schema c) r Wr G) as P. clear Hw m. subst d. destruct (refers_toks (col_schema c) r Wr G) as (x & -> & C). exact (reads_one SQLite _ _ _ P C).
  - unfold write_references. rewrite G. cbn [opt]. assert (refers_of d (col_schema c) r = None) as ->; [|apply reads_nil].
    unfold refers_of. destruct (rf_table r); [reflexivity|]. destruct (rf_column r); [reflexivity|discriminate G].
Qed.
Lemma column_reads : exists ts, Lex d (write_column d coll c level r) (ntok d (col_name c) :: ts) /\
  forall more, at_end more = true -> begins_constraint d (ntok d (col_name c) :: ts ++ more) = false /\ read_column d (ntok d (col_name c) :: ts ++ more) = Some (m, more).
Proof.
  destruct (type_piece d c (wc_type _ _ _ _ _ Hw)) as (ty & Pty & Wty & Ety & Bty).
  { rewrite computed_is. intros E. apply andb_true_iff in E as [E1 E2]. apply given_some in E2. destruct (wc_generated _ _ _ _ _ Hw E2) as [_ F]. destruct d; try discriminate E1. tauto. }
  pose proof (reads_app _ _ _ _ _ reads_primary (reads_app _ _ _ _ _ reads_auto (reads_app _ _ _ _ _ reads_notnull (reads_app _ _ _ _ _ reads_unique (reads_app _ _ _ _ _ reads_identity
    (reads_app _ _ _ _ _ reads_default (reads_app _ _ _ _ _ reads_onupdate (reads_app _ _ _ _ _ reads_collation (reads_app _ _ _ _ _ reads_generated reads_references))))))))) as R.
  destruct R as (tss & P & F). exists (ty ++ concat tss). split.
  - unfold write_column. exact (piece_after d _ _ [_] _ (lex_name d _) (piece_app d _ _ _ _ Pty P)).
  - intros more M. split.
    { unfold begins_constraint. pose proof (name_not_kw d _ _ (ntok_name d _ (wc_name _ _ _ _ _ Hw)) Hd) as K. apply orb_false_iff. split.
      - revert K. clear. destruct (ntok d (col_name c)); try reflexivity. cbn [is_word map bmem existsb]. intros K. repeat (apply orb_false_iff in K as [? K]). rewrite H, H0, H1, H2, H3. reflexivity.
      - destruct d; try reflexivity. assert (match (ty ++ concat tss) ++ more with t' :: _ => is_word [B"USING"] t' || is_sym "(" t' | [] => false end = false) as ->; [|apply andb_false_r].
        destruct ty as [|t ty].
        + cbn [app]. destruct F as [|t x tss l [(w & t' & -> & K') _] F].
          * cbn [concat app]. destruct more as [|[w|w|w|w|w|z] more]; try reflexivity. discriminate M. cbn [at_end is_sym is_word orb] in *. destruct (ceqb_spec "(" z) as [<-|]; [discriminate M|reflexivity].
          * cbn [concat app is_word is_sym]. rewrite orb_false_r. cbn [bmem existsb]. rewrite orb_false_r. destruct (beqb_spec (to_upper w) (B"USING")) as [E|]; [|reflexivity]. exfalso. rewrite E in K'. vm_compute in K'. repeat (destruct K' as [K'|K']; [discriminate K'|]). exact K'.
        + cbn [app begins_type] in *. apply negb_true_iff in Bty. rewrite orb_comm. exact Bty. }
    unfold read_column. rewrite (read_name d _ _ (wc_name _ _ _ _ _ Hw)). cbn [andthen]. rewrite <- app_assoc.
    rewrite (run_whole clauses 0 ty _ Wty) by (apply (follows_stops d), (clauses_follow d _ _ _ F); left; exact M).
    eapply clauses_read; [exact F|exact M|apply (Nat.le_trans _ _ _ (clauses_length _ _ _ F)); rewrite app_length; lia|].
    unfold plain_column. rewrite Ety. refine (adds_all d m (may_generated d coll level r c Hw) _).
    intros Ds Nc. pose proof (wc_collation _ _ _ _ _ Hw) as Fc. revert Nc. unfold m. cbn [column_meant cd_collation cd_default]. destruct (beqb_spec (col_collation c) coll) as [_|Nc]; [congruence|]. rewrite Ds in Fc. unfold if_given. destruct (col_collation c) as [|x y]; [congruence|]. intros _. destruct (Fc ltac:(discriminate) Nc) as [_ ->]. reflexivity.
Qed.
End Whole.
