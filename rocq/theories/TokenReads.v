(** Texts that are read by a parser of tokens. *)
From Verif Require Import GoStr GoStrFacts ModelSq SpecSql SqFacts SpecInsert SpecTokens TokenFacts.
From Coq Require Import ZifyBool ZifyNat.

(** In a place where [okr] holds for the text that follows and [okm] for its tokens, the parser [p]
    reads [x] from the text [s]. *)
Definition Read {A} (d : dialect) (p : toks -> option (A * toks)) (okr : bytes -> Prop) (okm : toks -> Prop) (s : bytes) (x : A) : Prop :=
  forall rest, okr rest -> exists ts, lexed d (s ++ rest) ts rest /\ forall more, okm more -> p (ts ++ more) = Some (x, more).
Definition ends (rest : bytes) : Prop := delimited rest /\ match rest with c :: _ => c <> "."%char /\ c <> "-"%char /\ c <> "*"%char | [] => True end.
Lemma ends_delimited rest : ends rest -> delimited rest.
Proof. intros H. exact (proj1 H). Qed.
Ltac ending := solve [ split; [exact I | exact I] | split; [cbn; repeat split; solve [reflexivity | discriminate] | cbn; repeat split; discriminate] ].

(** Fixed texts: [fixed s ts] if [s] is divided into [ts]. *)
Definition fixed (s : bytes) (ts : list token) : Prop := forallb plain_char s = true /\ closed_end s = true /\ tokens Other s = Some ts.
Lemma fixed_lexed d s ts rest : fixed s ts -> lexed d (s ++ rest) ts rest.
Proof. intros (P & C & T). exact (plain_lexed d s ts rest P C T). Qed.
Ltac fix_text := solve [repeat split; vm_compute; reflexivity].

(** ** Lists *)
Section Lists.
Context {A X : Type} (d : dialect) (item : toks -> option (A * toks)) (sep : toks -> option toks) (okr : bytes -> Prop) (okm : toks -> Prop).
Context (septext : bytes) (septok : token) (f : X -> bytes) (val : X -> A).
Hypothesis Hlex : forall r, lexed d (septext ++ r) [septok] r.
Hypothesis Hokr : forall r, okr (septext ++ r).
Hypothesis Hokm : forall m, okm (septok :: m).
Hypothesis Hsep : forall m, sep (septok :: m) = Some m.
Lemma tlist_read l : l <> [] -> (forall x, In x l -> Read d item okr okm (f x) (val x)) ->
  Read d (tlist item sep) okr (fun m => okm m /\ sep m = None) (join septext (map f l)) (map val l).
Proof.
  intros Nl Hi rest Ok.
  assert (G : exists ts, lexed d (join septext (map f l) ++ rest) ts rest /\ List.length l <= S (List.length ts)
    /\ forall more n, okm more -> sep more = None -> List.length l <= n -> tlist_ n item sep (ts ++ more) = Some (map val l, more)).
  { clear -Nl Hi Ok Hlex Hokr Hokm Hsep. induction l as [|x l IH]; [congruence|]. destruct l as [|y l].
    - destruct (Hi x (or_introl eq_refl) rest Ok) as (ts & L & P). exists ts. split; [exact L|]. split; [cbn; lia|].
      intros more n Om Sm Ln. destruct n as [|n]; [cbn in Ln; lia|]. cbn [tlist_]. rewrite (P more Om). cbn [andthen]. rewrite Sm. reflexivity.
    - destruct IH as (ts & L & Le & P); [discriminate|intros z Iz; exact (Hi z (or_intror Iz))|].
      destruct (Hi x (or_introl eq_refl) (septext ++ join septext (map f (y :: l)) ++ rest) (Hokr _)) as (tx & Lx & Px).
      exists (tx ++ septok :: ts). split; [|split].
      + change (map f (x :: y :: l)) with (f x :: map f (y :: l)). rewrite join_cons by discriminate. rewrite <- !app_assoc. apply (lexed_app d _ _ _ _ _ Lx). exact (lexed_app d _ [septok] _ _ _ (Hlex _) L).
      + rewrite app_length. cbn [List.length] in *. lia.
      + intros more n Om Sm Ln. destruct n as [|n]; [cbn in Ln; lia|]. cbn [tlist_]. rewrite <- app_assoc. cbn [app]. rewrite (Px _ (Hokm _)). cbn [andthen]. rewrite Hsep.
        rewrite (P more n Om Sm) by (cbn [List.length] in *; lia). reflexivity. }
  destruct G as (ts & L & Le & P). exists ts. split; [exact L|]. intros more (Om & Sm). unfold tlist. apply P; [exact Om|exact Sm|]. rewrite app_length. lia.
Qed.
End Lists.
(** Separators may differ in their blanks. *)
Section Seps.
Context {A X : Type} (d : dialect) (item : toks -> option (A * toks)) (sep : toks -> option toks) (okr : bytes -> Prop) (okm : toks -> Prop).
Context (septok : token) (f : X -> bytes) (val : X -> A).
Hypothesis Hokm : forall m, okm (septok :: m).
Hypothesis Hsep : forall m, sep (septok :: m) = Some m.
Lemma tlist_seps x0 (l : list (bytes * X)) : (forall x, In x (x0 :: map snd l) -> Read d item okr okm (f x) (val x)) ->
  (forall s x r, In (s, x) l -> lexed d (s ++ r) [septok] r /\ okr (s ++ r)) ->
  Read d (tlist item sep) okr (fun m => okm m /\ sep m = None) (f x0 ++ flat_map (fun p => fst p ++ f (snd p)) l) (map val (x0 :: map snd l)).
Proof.
  intros Hi Hs rest Ok.
  assert (G : exists ts, lexed d ((f x0 ++ flat_map (fun p => fst p ++ f (snd p)) l) ++ rest) ts rest /\ S (List.length l) <= S (List.length ts)
    /\ forall more n, okm more -> sep more = None -> S (List.length l) <= n -> tlist_ n item sep (ts ++ more) = Some (map val (x0 :: map snd l), more)).
  { clear -Hi Hs Ok Hokm Hsep. revert x0 Hi. induction l as [|(s & y) l IH]; intros x Hi.
    - cbn [flat_map]. rewrite app_nil_r. destruct (Hi x (or_introl eq_refl) rest Ok) as (ts & L & P). exists ts. split; [exact L|]. split; [cbn; lia|].
      intros more n Om Sm Ln. destruct n as [|n]; [cbn in Ln; lia|]. cbn [tlist_]. rewrite (P more Om). cbn [andthen]. rewrite Sm. reflexivity.
    - destruct (IH) with (x0 := y) as (ts & L & Le & P); [intros s' z r Iz; exact (Hs s' z r (or_intror Iz))|intros z Iz; exact (Hi z (or_intror Iz))|].
      destruct (Hs s y ((f y ++ flat_map (fun p => fst p ++ f (snd p)) l) ++ rest) (or_introl eq_refl)) as [Ls Os].
      destruct (Hi x (or_introl eq_refl) _ Os) as (tx & Lx & Px).
      exists (tx ++ septok :: ts). split; [|split].
      + cbn [flat_map fst snd]. rewrite <- !app_assoc in *. apply (lexed_app d _ _ _ _ _ Lx). exact (lexed_app d _ [septok] _ _ _ Ls L).
      + rewrite app_length. cbn [List.length] in *. lia.
      + intros more n Om Sm Ln. destruct n as [|n]; [cbn in Ln; lia|]. cbn [tlist_]. rewrite <- app_assoc. cbn [app]. rewrite (Px _ (Hokm _)). cbn [andthen]. rewrite Hsep.
        rewrite (P more n Om Sm) by (cbn [List.length] in *; lia). reflexivity. }
  destruct G as (ts & L & Le & P). exists ts. split; [exact L|]. intros more (Om & Sm). unfold tlist. apply P; [exact Om|exact Sm|]. rewrite app_length. lia.
Qed.
End Seps.
(** Items that begin with a mark. *)
Section Many.
Context {A X : Type} (d : dialect) (item : toks -> option (A * toks)) (okr : bytes -> Prop) (okm : toks -> Prop) (f : X -> bytes) (val : X -> A).
Context (mark : toks -> option toks) (marktext : bytes) (marktok : token).
Hypothesis Hmark : forall r, lexed d (marktext ++ r) [marktok] r.
Hypothesis Hmokr : forall r, okr (marktext ++ r).
Hypothesis Hmokm : forall m, okm (marktok :: m).
Hypothesis Hmarks : forall m, mark (marktok :: m) = Some m.
Lemma many_read l : (forall x, In x l -> Read d item okr okm (f x) (val x)) ->
  Read d (many mark item) okr (fun m => okm m /\ mark m = None) (flat_map (fun x => marktext ++ f x) l) (map val l).
Proof.
  intros Hi rest Ok.
  assert (G : exists ts, lexed d (flat_map (fun x => marktext ++ f x) l ++ rest) ts rest /\ List.length l <= List.length ts
    /\ okr (flat_map (fun x => marktext ++ f x) l ++ rest)
    /\ forall more, okm more -> mark more = None -> okm (ts ++ more) /\ forall n, List.length l <= n -> many_ n mark item (ts ++ more) = Some (map val l, more)).
  { clear -Hi Ok Hmark Hmokr Hmokm Hmarks. induction l as [|x l IH].
    - exists []. split; [apply lexed_none|]. split; [cbn; lia|]. split; [exact Ok|]. intros more Om Sm. split; [exact Om|]. intros n _. destruct n; cbn [many_ app]; rewrite Sm; reflexivity.
    - destruct IH as (ts & L & Le & Or & P); [intros z Iz; exact (Hi z (or_intror Iz))|].
      destruct (Hi x (or_introl eq_refl) _ Or) as (tx & Lx & Px).
      exists (marktok :: tx ++ ts). split; [|split; [|split]].
      + cbn [flat_map]. rewrite <- !app_assoc. apply (lexed_app d _ [marktok] _ _ _ (Hmark _)). exact (lexed_app d _ _ _ _ _ Lx L).
      + cbn [List.length]. rewrite app_length. lia.
      + cbn [flat_map]. rewrite <- !app_assoc. apply Hmokr.
      + intros more Om Sm. destruct (P more Om Sm) as [Om' Pm]. split; [apply Hmokm|]. intros n Ln. destruct n as [|n]; [cbn in Ln; lia|]. cbn [many_ app]. rewrite Hmarks, <- app_assoc, (Px _ Om'). cbn [andthen].
        rewrite Pm by (cbn in Ln; lia). reflexivity. }
  destruct G as (ts & L & Le & _ & P). exists ts. split; [exact L|]. intros more (Om & Sm). unfold many. apply (proj2 (P more Om Sm)). rewrite app_length. lia.
Qed.
End Many.

(** ** Names *)
Definition nodot (m : toks) : Prop := sym "." m = None.
Lemma name_read d s : Read d (name d) delimited (fun _ => True) (quote_identifier d s) (denoted d s).
Proof.
  intros rest R. destruct (name_lexed d s rest R) as (t & L & N). exists [t]. split; [exact L|]. intros more _. cbn [app name]. rewrite N. reflexivity.
Qed.
Lemma word_read d w : forallb ident_continue w = true -> (match w with c :: _ => ident_start c = true | [] => False end) -> bmem (to_lower w) (reserved d) = false ->
  Read d (name d) delimited (fun _ => True) w (fold_ident d w).
Proof.
  intros A I M rest R. exists [Word w]. split; [exact (word_lexed d w rest A I R)|]. intros more _. cbn [app name name_token]. rewrite M. reflexivity.
Qed.
Lemma fixed_dot d r : lexed d (B"." ++ r) [Sym "."] r.
Proof.
  apply lexed_step. destruct r, d; reflexivity.
Qed.
Lemma fixed_comma d r : lexed d (B", " ++ r) [Sym ","] r.
Proof. apply fixed_lexed. fix_text. Qed.
Lemma dot_delimited r : delimited (B"." ++ r).
Proof. cbn. repeat split; solve [reflexivity | discriminate]. Qed.
Lemma comma_ends r : ends (B", " ++ r).
Proof. ending. Qed.
Lemma read_weaken {A} d (p : toks -> option (A * toks)) (okr okr' : bytes -> Prop) (okm okm' : toks -> Prop) s x :
  (forall r, okr' r -> okr r) -> (forall m, okm' m -> okm m) -> Read d p okr okm s x -> Read d p okr' okm' s x.
Proof. intros Hr Hm H rest R. destruct (H rest (Hr _ R)) as (ts & L & P). exists ts. split; [exact L|]. intros more M. exact (P more (Hm _ M)). Qed.
Lemma read_then {A C} d (p : toks -> option (A * toks)) okr okm s x (g : A -> option C) y : g x = Some y ->
  Read d p okr okm s x -> Read d (fun ts => let? (a, r) := p ts in let? b := g a in Some (b, r)) okr okm s y.
Proof. intros G H rest R. destruct (H rest R) as (ts & L & P). exists ts. split; [exact L|]. intros more M. rewrite (P more M). cbn [andthen]. rewrite G. reflexivity. Qed.
Lemma path_read d l : l <> [] -> Read d (path d) ends nodot (join (B".") (map (quote_identifier d) l)) (map (denoted d) l).
Proof.
  intros N. apply (read_weaken d _ delimited _ (fun m => True /\ sym "." m = None)); [exact ends_delimited|intros m M; split; [exact I|exact M]|].
  apply (tlist_read d (name d) (sym ".") delimited (fun _ => True) (B".") (Sym ".")); auto; [apply fixed_dot|apply dot_delimited|]. intros x _. apply name_read.
Qed.
Lemma names_read d l : l <> [] -> Read d (names d) ends (fun m => sym "," m = None) (join (B", ") (map (quote_identifier d) l)) (map (denoted d) l).
Proof.
  intros N. apply (read_weaken d _ delimited _ (fun m => True /\ sym "," m = None)); [exact ends_delimited|intros m M; split; [exact I|exact M]|].
  apply (tlist_read d (name d) (sym ",") delimited (fun _ => True) (B", ") (Sym ",")); auto; [apply fixed_comma|intros r; apply ends_delimited, comma_ends|]. intros x _. apply name_read.
Qed.
(** In parentheses. *)
Lemma open_lexed d r : lexed d (B"(" ++ r) [Sym "("] r.
Proof. apply fixed_lexed. fix_text. Qed.
Lemma close_lexed d r : lexed d (B")" ++ r) [Sym ")"] r.
Proof. apply fixed_lexed. fix_text. Qed.
Lemma parens_read {A} d (p : toks -> option (A * toks)) (okr : bytes -> Prop) (okm : toks -> Prop) s x : (forall r, okr (B")" ++ r)) -> (forall m, okm (Sym ")" :: m)) ->
  Read d p okr okm s x -> Read d (parens p) (fun _ => True) (fun _ => True) (B"(" ++ s ++ B")") x.
Proof.
  intros Hr Hm H rest _. destruct (H (B")" ++ rest) (Hr _)) as (ts & L & P). exists (Sym "(" :: ts ++ [Sym ")"]). split.
  - rewrite <- !app_assoc. apply (lexed_app d _ [Sym "("] _ _ _ (open_lexed d _)). apply (lexed_app d _ _ _ _ _ L), close_lexed.
  - intros more _. unfold parens. cbn [app sym]. change (ceqb "(" "(") with true. cbv iota. cbn [andthen]. rewrite <- app_assoc. cbn [app]. rewrite (P _ (Hm _)). cbn [andthen sym]. reflexivity.
Qed.

(** ** Constants *)
Lemma lex_quoted_more c s v r rest : lex_quoted c s = Some (v, r) -> hd_error rest <> Some c -> lex_quoted c (s ++ rest) = Some (v, r ++ rest).
Proof.
  intros H N. revert v r H. induction s as [s IH] using list_len_ind; intros v r. destruct s as [|x s]; [discriminate|]. cbn [lex_quoted app].
  destruct (ceqb x c).
  - destruct s as [|y s].
    + intros [= <- <-]. cbn [app]. destruct rest as [|y rest]; [reflexivity|]. destruct (ceqb_spec y c) as [->|X]; [|reflexivity]. exfalso. apply N. reflexivity.
    + cbn [app]. destruct (ceqb y c).
      * destruct (lex_quoted c s) as [[v' r']|] eqn:E; [|discriminate]. intros [= <- <-]. rewrite (IH s ltac:(cbn; lia) _ _ E). reflexivity.
      * intros [= <- <-]. reflexivity.
  - destruct (lex_quoted c s) as [[v' r']|] eqn:E; [|discriminate]. intros [= <- <-]. rewrite (IH s ltac:(cbn; lia) _ _ E). reflexivity.
Qed.
Lemma lex_quoted_bs_more c s v r rest : lex_quoted_bs c s = Some (v, r) -> hd_error rest <> Some c -> lex_quoted_bs c (s ++ rest) = Some (v, r ++ rest).
Proof.
  intros H N. revert v r H. induction s as [s IH] using list_len_ind; intros v r. destruct s as [|x s]; [discriminate|]. cbn [lex_quoted_bs app].
  destruct (ceqb x backslash).
  { destruct s as [|y s]; [discriminate|]. cbn [app]. destruct (lex_quoted_bs c s) as [[v' r']|] eqn:E; [|discriminate]. intros [= <- <-]. rewrite (IH s ltac:(cbn; lia) _ _ E). reflexivity. }
  destruct (ceqb x c).
  - destruct s as [|y s].
    + intros [= <- <-]. cbn [app]. destruct rest as [|y rest]; [reflexivity|]. destruct (ceqb_spec y c) as [->|X]; [|reflexivity]. exfalso. apply N. reflexivity.
    + cbn [app]. destruct (ceqb y c).
      * destruct (lex_quoted_bs c s) as [[v' r']|] eqn:E; [|discriminate]. intros [= <- <-]. rewrite (IH s ltac:(cbn; lia) _ _ E). reflexivity.
      * intros [= <- <-]. reflexivity.
  - destruct (lex_quoted_bs c s) as [[v' r']|] eqn:E; [|discriminate]. intros [= <- <-]. rewrite (IH s ltac:(cbn; lia) _ _ E). reflexivity.
Qed.
Lemma take_ident_ends s w r rest : take_ident s = (w, r) -> delimited rest -> take_ident (s ++ rest) = (w, r ++ rest).
Proof.
  intros H D. destruct r as [|x r]; [|apply take_ident_more; [exact H|discriminate]].
  pose proof (take_ident_split _ _ _ H) as E. rewrite app_nil_r in E. subst w. apply take_ident_app; [exact (take_ident_all _ _ _ H)|exact D].
Qed.
Lemma take_number_ends s w r rest : take_number s = (w, r) -> ends rest -> take_number (s ++ rest) = (w, r ++ rest).
Proof.
  intros H D. destruct r as [|x r]; [|apply take_number_more; [exact H|discriminate]].
  pose proof (take_number_split _ _ _ H) as E. rewrite app_nil_r in E. subst w. pose proof (take_number_all _ _ _ H) as A. cbn [app]. clear H. induction s as [|c s IH].
  - cbn [app]. destruct rest as [|c rest]; [reflexivity|]. destruct D as [D1 D2]. cbn [take_number]. destruct D1 as [-> _]. destruct D2 as [D2 _]. apply ceqb_neq in D2. rewrite D2. reflexivity.
  - cbn [app forallb] in *. apply andb_true_iff in A as [A1 A2]. cbn [take_number]. rewrite A1. unfold bytes in *. rewrite (IH A2). reflexivity.
Qed.
Lemma lex_one_more d s ts r rest : lex_one d s = Some (ts, r) -> ends rest -> lex_one d (s ++ rest) = Some (ts, r ++ rest).
Proof.
  intros H E. unfold lex_one in *. destruct s as [|c s]; [discriminate|]. cbn [app]. destruct (is_space c); [injection H as <- <-; reflexivity|].
  pose proof (proj1 E) as D. assert (Hq : forall q, q = squote \/ q = id_close d -> hd_error rest <> Some q).
  { destruct rest as [|x rest]; [discriminate|]. cbn. destruct D as (_ & D1 & D2 & D3 & D4). intros q [->| ->] [= ->]; [apply D2; reflexivity|]. destruct d; solve [apply D1; reflexivity|apply D3; reflexivity|apply D4; reflexivity]. }
  destruct (ceqb c squote).
  { unfold lex_strlit in *. destruct d; match type of H with context [andthen ?m _] => destruct m as [[v r']|] eqn:L end; try discriminate H; cbn [andthen] in H; injection H as <- <-;
      (rewrite (lex_quoted_more _ _ _ _ rest L) || rewrite (lex_quoted_bs_more _ _ _ _ rest L)); (reflexivity || (apply Hq; left; reflexivity)). }
  destruct (ceqb c (id_open d)).
  { destruct (lex_quoted (id_close d) s) as [[v r']|] eqn:L; [|discriminate H]. cbn [andthen] in H. injection H as <- <-. rewrite (lex_quoted_more _ _ _ _ rest L); [reflexivity|]. apply Hq. right. reflexivity. }
  destruct (strip_prefix (B"x'") (c :: s)) as [s''|] eqn:X.
  { apply (proj1 (strip_prefix_Some _ _ _)) in X. assert (strip_prefix (B"x'") (c :: s ++ rest) = Some (s'' ++ rest)) as ->.
    { apply (proj2 (strip_prefix_Some _ _ _)). change (c :: s ++ rest) with ((c :: s) ++ rest). rewrite X, <- app_assoc. reflexivity. }
    destruct (cut_byte squote s'') as [[h r']|] eqn:C; [|discriminate H]. cbn [andthen] in H. destruct (hex_decode h) eqn:Hx; [|discriminate H]. cbn [andthen] in H. injection H as <- <-.
    apply cut_byte_Some in C as [-> C]. rewrite <- app_assoc. cbn [app]. rewrite (cut_byte_app _ _ _ C). cbn [andthen]. rewrite Hx. reflexivity. }
  assert (strip_prefix (B"x'") (c :: s ++ rest) = None) as ->.
  { destruct (strip_prefix (B"x'") (c :: s ++ rest)) as [s''|] eqn:X'; [|reflexivity]. exfalso. apply (proj1 (strip_prefix_Some _ _ _)) in X'. injection X' as -> X'. destruct s as [|y s].
    - cbn [app] in X'. apply (Hq squote); [left; reflexivity|]. rewrite X'. reflexivity.
    - cbn [app] in X'. injection X' as -> _. cbn in X. discriminate X. }
  destruct (ident_start c).
  { destruct (take_ident (c :: s)) as [w r'] eqn:T. injection H as <- <-. pose proof (take_ident_ends _ _ _ rest T D) as T'. cbn [app] in T'. rewrite T'. reflexivity. }
  destruct (is_digit c).
  { destruct (take_number (c :: s)) as [w r'] eqn:T. injection H as <- <-. pose proof (take_number_ends _ _ _ rest T E) as T'. cbn [app] in T'. rewrite T'. reflexivity. }
  destruct (comment c s) eqn:C; [discriminate H|]. injection H as <- <-. assert (comment c (s ++ rest) = false) as ->; [|reflexivity].
  unfold comment in *. destruct s as [|y s]; [|exact C]. cbn [app]. destruct rest as [|y rest]; [reflexivity|]. destruct E as [_ (_ & E2 & E3)]. apply ceqb_neq in E2, E3. rewrite E2, E3, !andb_false_r. reflexivity.
Qed.
Lemma lexed_more d s ts rest : lexed d s ts [] -> ends rest -> lexed d (s ++ rest) ts rest.
Proof.
  intros H E. remember [] as e eqn:Ee. induction H as [s|s t r ts r' L H IH]; [subst s; apply lexed_none|]. exact (lexed_one d _ _ _ _ _ (lex_one_more d s t r rest L E) (IH Ee)).
Qed.
(** A constant by itself is one in a list. *)
Lemma constant_read d s ts v : tokens d s = Some ts -> constant d ts = Some (v, []) -> Read d (constant d) ends (fun _ => True) s v.
Proof.
  intros T C rest E. exists ts. split; [exact (lexed_more d s ts rest (tokens_lexed d s ts T) E)|]. intros more _.
  destruct ts as [|t ts]; [discriminate C|]. destruct t; cbn [constant app] in *; try discriminate C.
  - destruct (equal_fold w (B"null")); [injection C as <- ->; reflexivity|]. destruct d; try discriminate C; (destruct (equal_fold w (B"true")); [injection C as <- ->; reflexivity|]; destruct (equal_fold w (B"false")); [injection C as <- ->; reflexivity|discriminate C]).
  - injection C as <- ->. reflexivity.
  - destruct d; try discriminate C; injection C as <- ->; reflexivity.
  - destruct d; try (injection C as <- ->; reflexivity). destruct (strip_prefix (B"0x") w) as [h|]; [|injection C as <- ->; reflexivity]. destruct (hex_decode h); [|discriminate C]. cbn [andthen] in *. injection C as <- ->. reflexivity.
  - destruct ts as [|t ts]; [discriminate C|]. destruct t; try discriminate C. cbn [app]. destruct (ceqb c "-"); [|discriminate C]. injection C as <- ->. reflexivity.
Qed.
