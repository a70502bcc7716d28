(** Texts and their tokens, and runs of tokens. *)
From Verif Require Import GoStr GoStrFacts ModelSq SpecSql SqFacts SpecInsert SpecTokens TokenFacts TokenReads SpecDdl ModelCatalog ModelDiff ModelDiffSql ModelDdlText SpecDdlText.
From Verif Require SpecWipe WipeFacts.
From Coq Require Import ZifyBool ZifyNat.

(** ** Texts *)
Definition Lex (d : dialect) (s : bytes) (ts : toks) : Prop := lexed d s ts [].
Lemma lex_nil d : Lex d [] [].
Proof. apply lexed_none. Qed.
Lemma ends_nil : ends [].
Proof. split; exact I. Qed.
Lemma ends_app a b : ends a -> ends b -> ends (a ++ b).
Proof. destruct a as [|x a]; [intros _ H; exact H|]. intros H _. exact H. Qed.
Lemma lex_app d a b ts us : Lex d a ts -> Lex d b us -> ends b -> Lex d (a ++ b) (ts ++ us).
Proof. intros A C E. exact (lexed_app d _ _ _ _ _ (lexed_more d a ts b A E) C). Qed.
Lemma lex_fixed d a b ts us : fixed a ts -> Lex d b us -> Lex d (a ++ b) (ts ++ us).
Proof. intros A C. exact (lexed_app d _ _ _ _ _ (fixed_lexed d a ts b A) C). Qed.
(** A text that may follow any other. *)
Definition Piece (d : dialect) (s : bytes) (ts : toks) : Prop := Lex d s ts /\ ends s.
Lemma piece_nil d : Piece d [] [].
Proof. split; [apply lex_nil|apply ends_nil]. Qed.
Lemma piece_app d a b ts us : Piece d a ts -> Piece d b us -> Piece d (a ++ b) (ts ++ us).
Proof. intros [A Ea] [C Ec]. split; [exact (lex_app d _ _ _ _ A C Ec)|exact (ends_app _ _ Ea Ec)]. Qed.
Lemma piece_after d a b ts us : Lex d a ts -> Piece d b us -> Lex d (a ++ b) (ts ++ us).
Proof. intros A [C Ec]. exact (lex_app d _ _ _ _ A C Ec). Qed.
Lemma piece_fixed d a b ts us : fixed a ts -> a <> [] -> ends a -> Lex d b us -> Piece d (a ++ b) (ts ++ us).
Proof. intros A N E C. split; [exact (lex_fixed d _ _ _ _ A C)|]. destruct a as [|x a]; [congruence|exact E]. Qed.
Lemma lex_one_space d s ts : Lex d s ts -> Lex d (B" " ++ s) ts.
Proof. intros H. exact (lex_fixed d (B" ") s [] ts ltac:(fix_text) H). Qed.
Lemma piece_space d s ts : Lex d s ts -> Piece d (B" " ++ s) ts.
Proof. intros H. split; [exact (lex_one_space d s ts H)|ending]. Qed.
Lemma lex_tokens d s ts : Lex d s ts <-> tokens d s = Some ts.
Proof. split; [apply lexed_tokens|apply tokens_lexed]. Qed.
Lemma lex_text d s ts : tokens d s = Some ts -> Lex d s (text d s) /\ text d s = ts.
Proof. intros H. unfold text. rewrite H. split; [apply tokens_lexed; exact H|reflexivity]. Qed.
Ltac lex_now := apply lex_tokens; match goal with |- tokens ?d _ = _ => destruct d; vm_compute; reflexivity end.
Ltac piece_now := split; [lex_now|ending].
Lemma piece_opt d (b : bool) s ts : (b = true -> Piece d s ts) -> Piece d (opt b s) (if b then ts else []).
Proof. intros H. destruct b; [exact (H eq_refl)|apply piece_nil]. Qed.

(** ** Names *)
Definition ntok (d : dialect) (n : bytes) : token := if needs_quoting d n then Quoted (denoted d n) else Word n.
Lemma plain_is d n : plain_name d n -> denoted d n = n.
Proof. intros H. apply WipeFacts.plain_denoted. exact H. Qed.
Lemma name_lexed_ d n rest : delimited rest -> lexed d (quote_identifier d n ++ rest) [ntok d n] rest.
Proof.
  intros R. pose proof (lex_quote_identifier d n rest R) as L. unfold lex_ident in L. unfold quote_identifier, ntok in *. destruct (needs_quoting d n) eqn:Nq.
  - cbn [app] in *. assert (Eo : open_quote d = id_open d) by (destruct d; reflexivity). rewrite Eo, ceqb_refl in L. apply lexed_step. unfold lex_one. rewrite Eo, ceqb_refl.
    assert (is_space (id_open d) = false) as -> by (destruct d; reflexivity). assert (ceqb (id_open d) squote = false) as -> by (destruct d; reflexivity). rewrite L. reflexivity.
  - destruct (n ++ rest) as [|c s'] eqn:Q; [discriminate L|]. assert (N : exists n', n = c :: n').
    { destruct n as [|c' n']; [vm_compute in Nq; discriminate Nq|]. injection Q as -> _. exists n'. reflexivity. }
    destruct N as [n' ->]. destruct (ceqb_spec c (id_open d)) as [->|Nc].
    + exfalso. unfold needs_quoting in Nq. destruct d; vm_compute in Nq; discriminate Nq.
    + destruct (ident_start c) eqn:I; [|discriminate L]. destruct (take_ident (c :: s')) as [w r] eqn:T. destruct (bmem (to_lower w) (reserved d)) eqn:M; [discriminate L|]. injection L as L <-.
      pose proof (take_ident_split _ _ _ T) as E. rewrite <- Q in E. apply app_inv_tail in E. subst w. rewrite <- Q. apply word_lexed; [exact (take_ident_all _ _ _ T)|exact I|exact R].
Qed.
Lemma lex_name d n : Lex d (quote_identifier d n) [ntok d n].
Proof. pose proof (name_lexed_ d n [] I) as L. rewrite app_nil_r in L. exact L. Qed.
Lemma ntok_name d n : plain_name d n -> name_token d (ntok d n) = Some n.
Proof.
  intros P. destruct (name_lexed d n [] I) as (t & L & N). pose proof (name_lexed_ d n [] I) as L'. apply lexed_tokens in L, L'. rewrite L in L'. injection L' as ->.
  rewrite N, (plain_is d n P). reflexivity.
Qed.
Lemma read_name d n more : plain_name d n -> name d (ntok d n :: more) = Some (n, more).
Proof. intros P. cbn [name]. rewrite (ntok_name d n P). reflexivity. Qed.

Definition qtoks (d : dialect) (q : qname) : toks := match fst q with [] => [ntok d (snd q)] | s => [ntok d s; Sym "."; ntok d (snd q)] end.
Lemma lex_qname d q : Lex d (qtext d q) (qtoks d q).
Proof.
  unfold qtext, qtoks. destruct (fst q) as [|c s] eqn:E; [apply lex_name|]. unfold opt, given. cbn [is_empty negb]. rewrite <- app_assoc.
  apply (lexed_app d _ [_] _ [_; _] _ (name_lexed_ d (c :: s) _ (dot_delimited _))). exact (lexed_app d _ [_] _ [_] _ (fixed_dot d _) (lex_name d _)).
Qed.
Lemma read_path d q more : plain_table d q -> sym "." more = None -> path d (qtoks d q ++ more) = Some (path_of q, more).
Proof.
  intros [P1 P2] M. unfold path, qtoks, path_of, tlist. destruct (fst q) as [|c s]; cbn [app List.length tlist_]; rewrite ?read_name by assumption; cbn [andthen].
  - rewrite M. reflexivity.
  - cbn [sym]. change (ceqb "." ".") with true. cbv iota. rewrite read_name by assumption. cbn [andthen]. rewrite M. reflexivity.
Qed.
(** Lists in general: items with commas between them. *)
Fixpoint commas (l : list toks) : toks := match l with [] => [] | [x] => x | x :: l' => x ++ Sym "," :: commas l' end.
Lemma commas_cons x y l : commas (x :: y :: l) = x ++ Sym "," :: commas (y :: l).
Proof. reflexivity. Qed.
Lemma lex_join d (l : list bytes) (ts : list toks) : Forall2 (Lex d) l ts -> Lex d (join (B", ") l) (commas ts).
Proof.
  intros H. induction H as [|x t l ts X H IH]; [apply lex_nil|]. destruct H as [|y u l ts Y H]; [exact X|]. rewrite join_cons by discriminate. rewrite commas_cons.
  apply (lex_app d _ _ _ _ X); [|ending]. exact (lex_fixed d (B", ") _ [Sym ","] _ ltac:(fix_text) IH).
Qed.
Lemma commas_length ts : List.length ts <= S (List.length (commas ts)).
Proof.
  induction ts as [|x ts IH]; [cbn; lia|]. destruct ts as [|y ts]; [cbn; lia|]. rewrite commas_cons, app_length. cbn [List.length] in *. lia.
Qed.
Lemma tlist_commas {A} (item : toks -> option (A * toks)) (okm : toks -> Prop) (ts : list toks) (xs : list A) more : ts <> [] ->
  Forall2 (fun t x => forall m, okm m -> item (t ++ m) = Some (x, m)) ts xs -> (forall m, okm (Sym "," :: m)) -> okm more -> sym "," more = None ->
  tlist item (sym ",") (commas ts ++ more) = Some (xs, more).
Proof.
  intros N H Oc Om Sm. assert (G : forall n, ts <> [] -> List.length ts <= n -> tlist_ n item (sym ",") (commas ts ++ more) = Some (xs, more)).
  { clear N. induction H as [|t x ts xs X H IH]; intros n N Ln; [exfalso; apply N; reflexivity|]. destruct n as [|n]; [cbn in Ln; lia|]. destruct H as [|u y ts xs Y H].
    - cbn [commas tlist_]. rewrite (X more Om). cbn [andthen]. rewrite Sm. reflexivity.
    - rewrite commas_cons, <- app_assoc. cbn [app tlist_]. rewrite (X _ (Oc _)). cbn [andthen sym]. change (ceqb "," ",") with true. cbv iota.
      unfold toks in *. rewrite (IH n ltac:(discriminate) ltac:(cbn [List.length] in *; lia)). reflexivity. }
  unfold tlist. apply G; [exact N|]. rewrite app_length. pose proof (commas_length ts). lia.
Qed.
Definition ntoks (d : dialect) (l : list bytes) : toks := commas (map (fun n => [ntok d n]) l).
Lemma lex_names d l : Lex d (write_column_names d l) (ntoks d l).
Proof.
  unfold write_column_names, ntoks. apply lex_join. induction l as [|n l IH]; [constructor|]. constructor; [apply lex_name|exact IH].
Qed.
Lemma read_names d l more : plain_names_ d l -> sym "," more = None -> names d (ntoks d l ++ more) = Some (l, more).
Proof.
  intros [N P] M. unfold names, ntoks. apply (tlist_commas (name d) (fun _ => True)); auto; [destruct l; [congruence|discriminate]|].
  clear N. induction l as [|n l IH]; [constructor|]. constructor; [|apply IH; intros x Ix; exact (P x (or_intror Ix))].
  intros m _. cbn [app]. apply read_name. exact (P n (or_introl eq_refl)).
Qed.
Lemma read_parens {A} (p : toks -> option (A * toks)) ts x more : p (ts ++ Sym ")" :: more) = Some (x, Sym ")" :: more) ->
  parens p (Sym "(" :: ts ++ Sym ")" :: more) = Some (x, more).
Proof. intros H. unfold parens. cbn [sym]. change (ceqb "(" "(") with true. cbv iota. cbn [andthen]. rewrite H. reflexivity. Qed.
Lemma read_names_in d l more : plain_names_ d l -> parens (names d) (Sym "(" :: ntoks d l ++ Sym ")" :: more) = Some (l, more).
Proof. intros P. apply read_parens. apply read_names; [exact P|reflexivity]. Qed.

(** ** Runs *)
Definition stops (stop : list bytes) (more : toks) : Prop := match more with t :: _ => ends_run stop t = true | [] => True end.
Lemma run_whole stop n ts more : whole stop n ts = true -> stops stop more -> run stop n (ts ++ more) = (ts, more).
Proof.
  revert n. induction ts as [|t ts IH]; intros n W M.
  - cbn [whole] in W. cbn [app]. destruct more as [|t more]; [reflexivity|]. cbn [run stops] in *. rewrite W, M. reflexivity.
  - cbn [whole] in W. apply andb_true_iff in W as [W1 W]. cbn [app run]. apply negb_true_iff in W1. rewrite W1, (IH _ W M). reflexivity.
Qed.
Lemma whole_run stop n ts a b : run stop n ts = (a, b) -> b <> [] -> whole stop n a = true /\ ts = a ++ b.
Proof.
  revert n a b. induction ts as [|t ts IH]; intros n a b; cbn [run]; [intros [= <- <-]; congruence|].
  destruct ((n =? 0) && ends_run stop t) eqn:E.
  - intros [= <- <-] _. apply andb_true_iff in E as [E _]. split; [exact E|reflexivity].
  - destruct (run stop (deeper n t) ts) as [a' b'] eqn:R. intros [= <- <-] N. destruct (IH _ _ _ R N) as [W ->]. cbn [whole]. rewrite E, W. split; reflexivity.
Qed.
Lemma some_run_whole stop ts more : whole stop 0 ts = true -> ts <> [] -> stops stop more -> some_run stop (ts ++ more) = Some (ts, more).
Proof. intros W N M. unfold some_run. rewrite (run_whole stop 0 ts more W M). destruct ts; [congruence|reflexivity]. Qed.
Lemma operand_whole stop t ts more : ends_run [] t = false -> whole stop (deeper 0 t) ts = true -> stops stop more ->
  operand stop (t :: ts ++ more) = Some (t :: ts, more).
Proof. intros E W M. unfold operand. rewrite E, (run_whole _ _ _ _ W M). reflexivity. Qed.
Lemma stops_weaken more stop : stops [] more -> stops stop more.
Proof.
  destruct more as [|t more]; [auto|]. cbn [stops]. unfold ends_run. destruct t; cbn [is_word is_sym bmem existsb orb]; try discriminate. auto.
Qed.
Lemma stops_close m stop : stops stop (Sym ")" :: m).
Proof. apply stops_weaken. reflexivity. Qed.
Lemma stops_comma m stop : stops stop (Sym "," :: m).
Proof. apply stops_weaken. reflexivity. Qed.
(** Expressions in brackets. *)
Lemma parens_whole ts more : whole [] 0 ts = true -> ts <> [] -> parens expression (Sym "(" :: ts ++ Sym ")" :: more) = Some (ts, more).
Proof. intros W N. apply read_parens. apply some_run_whole; [exact W|exact N|apply stops_close]. Qed.
Lemma parens_inv ts e : parens expression ts = Some (e, []) -> ts = Sym "(" :: e ++ [Sym ")"] /\ whole [] 0 e = true /\ e <> [].
Proof.
  unfold parens. intros H. destruct ts as [|[w|w|w|w|w|c] ts]; cbn [sym] in H; try discriminate H. destruct (ceqb_spec "(" c) as [<-|]; [|discriminate H]. cbn [andthen] in H.
  unfold expression, some_run in H. destruct (run [] 0 ts) as [a b] eqn:R. destruct a as [|x a]; [discriminate H|]. cbn [andthen] in H.
  destruct b as [|[w|w|w|w|w|c] b]; cbn [sym] in H; try discriminate H. destruct (ceqb_spec ")" c) as [<-|]; [|discriminate H]. cbn [andthen] in H. injection H as <- ->.
  destruct (whole_run _ _ _ _ _ R) as [W ->]; [discriminate|]. split; [reflexivity|]. split; [exact W|discriminate].
Qed.

(** ** Expressions of the catalog *)
Lemma fits_text d stop s : fits d stop s -> Lex d s (text d s) /\ text d s <> [] /\ whole stop 0 (text d s) = true.
Proof. intros (ts & T & N & W). destruct (lex_text d s ts T) as [L E]. rewrite E in *. auto. Qed.
Lemma fits_some d stop s : fits d stop s -> s <> [].
Proof. intros (ts & T & N & _) ->. cbn in T. injection T as <-. congruence. Qed.
