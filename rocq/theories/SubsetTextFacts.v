(** The texts of a subset dump as they are read. *)
From Verif Require Import GoStr GoStrFacts ModelSq SpecSql SqFacts SpecInsert SpecTokens TokenFacts TokenReads ModelDdl ModelSubset SpecSubset ModelSubsetText SpecSubsetText.
From Coq Require Import ZifyBool ZifyNat.

Ltac fx s ts := eapply (lexed_app _ (s ++ _) ts); [apply fixed_lexed; fix_text|].
Ltac words := cbn [kws andthen]; repeat match goal with
  | |- context [kw ?k (Word ?w :: ?x)] => change (kw k (Word w :: x)) with (Some x); cbn [andthen]
  | |- context [sym ?c (Sym ?c' :: ?x)] => change (sym c (Sym c' :: x)) with (Some x); cbn [andthen]
  end.
Section Texts.
Context (d : dialect).
(** Names that quoting preserves (C01). *)
Definition good (n : bytes) : Prop := denoted d n = n.
Definition good_tid (i : tid) : Prop := (fst i <> [] -> good (fst i)) /\ good (snd i).
Definition good_col (c : colref) : Prop := good_tid (fst c) /\ good (snd c).
Definition tid_path (i : tid) : list bytes := (if beqb (fst i) [] then [] else [fst i]) ++ [snd i].
Lemma full_name_path i : full_name d i = join (B".") (map (quote_identifier d) (tid_path i)).
Proof. unfold full_name, tid_path. destruct (beqb (fst i) []); [reflexivity|]. cbn [map join app]. rewrite <- app_assoc. reflexivity. Qed.
Lemma good_path i : good_tid i -> map (denoted d) (tid_path i) = tid_path i.
Proof.
  intros [G1 G2]. unfold tid_path. destruct (beqb_spec (fst i) []) as [E|N]; cbn [app map]; [rewrite G2; reflexivity|]. rewrite (G1 N), G2. reflexivity.
Qed.
Lemma table_of_path i : table_of (tid_path i) = Some i.
Proof. unfold tid_path. destruct i as [s t]. cbn [fst snd]. destruct (beqb_spec s []) as [->|N]; reflexivity. Qed.
Lemma table_ref_read i : good_tid i -> Read d (table_ref d) ends nodot (full_name d i) i.
Proof.
  intros G. unfold table_ref. apply (read_then d (path d) ends nodot _ (tid_path i) table_of i (table_of_path i)). rewrite full_name_path. rewrite <- (good_path i G) at 2. apply path_read. unfold tid_path. destruct (beqb (fst i) []); discriminate.
Qed.
Lemma join_snoc sep (l : list bytes) x : l <> [] -> join sep (l ++ [x]) = join sep l ++ sep ++ x.
Proof.
  induction l as [|y l IH]; [congruence|]. intros _. destruct l as [|z l]; [reflexivity|]. cbn [app]. rewrite (join_cons sep y (z :: l ++ [x])) by discriminate. rewrite (join_cons sep y (z :: l)) by discriminate.
  change (z :: l ++ [x]) with ((z :: l) ++ [x]). rewrite IH by discriminate. rewrite <- !app_assoc. reflexivity.
Qed.
Lemma tid_path_nonempty i : tid_path i <> [].
Proof. unfold tid_path. destruct (beqb (fst i) []); discriminate. Qed.
Lemma column_ref_read i c : good_tid i -> good c -> Read d (column_ref d) ends nodot (column_text d i c) (i, c).
Proof.
  intros G Gc. unfold column_ref. apply (read_then d (path d) ends nodot _ (tid_path i ++ [c]) column_of (i, c)).
  - unfold column_of. rewrite rev_app_distr. cbn [rev app]. rewrite rev_involutive, table_of_path. reflexivity.
  - assert (column_text d i c = join (B".") (map (quote_identifier d) (tid_path i ++ [c]))) as ->.
    { unfold column_text. rewrite full_name_path, map_app. cbn [map]. rewrite join_snoc; [reflexivity|]. intros E. apply map_eq_nil in E. exact (tid_path_nonempty i E). }
    assert (E : map (denoted d) (tid_path i ++ [c]) = tid_path i ++ [c]) by (rewrite map_app, (good_path i G); cbn [map]; rewrite Gc; reflexivity).
    rewrite <- E at 2. apply path_read. intros X. apply app_eq_nil in X as [_ X]. discriminate X.
Qed.
Lemma condition_read c : good_col (fst c) -> good_col (snd c) -> Read d (condition d) ends nodot (cond_text d c) c.
Proof.
  destruct c as [[i a] [k b]]. cbn [fst snd]. intros [Gi Ga] [Gk Gb] rest R. cbn [fst snd] in *. unfold cond_text. cbn [fst snd]. rewrite <- !app_assoc.
  destruct (column_ref_read k b Gk Gb rest R) as (t2 & L2 & P2). destruct (column_ref_read i a Gi Ga (B" = " ++ column_text d k b ++ rest)) as (t1 & L1 & P1); [ending|].
  exists (t1 ++ Sym "=" :: t2). split.
  - apply (lexed_app d _ _ _ _ _ L1). fx (B" = ") [Sym "="]. exact L2.
  - intros more M. unfold condition. rewrite <- app_assoc. cbn [app]. rewrite P1 by reflexivity. words. rewrite (P2 more M). reflexivity.
Qed.
Definition noand (m : toks) : Prop := nodot m /\ kw (B"and") m = None.
Definition good_conds (l : list (colref * colref)) : Prop := l <> [] /\ forall a b, In (a, b) l -> good_col a /\ good_col b.
Lemma conditions_read l : good_conds l -> Read d (conditions d) ends noand (join (B" AND ") (map (cond_text d) l)) l.
Proof.
  intros [N G]. rewrite <- (map_id l) at 2. apply (tlist_read d (condition d) (kw (B"and")) ends nodot (B" AND ") (Word (B"AND"))); try (intros; reflexivity); [intros r; apply fixed_lexed; fix_text|intros r; ending|exact N|].
  intros [a b] I. destruct (G a b I). apply condition_read; assumption.
Qed.
Lemma joined_read j : good_tid (fst j) -> good_conds (snd j) -> Read d (joined d) ends noand (full_name d (fst j) ++ B" ON " ++ join (B" AND ") (map (cond_text d) (snd j))) j.
Proof.
  destruct j as [t on]. cbn [fst snd]. intros G C rest R. rewrite <- !app_assoc. destruct (conditions_read on C rest R) as (t2 & L2 & P2). destruct (table_ref_read t G (B" ON " ++ join (B" AND ") (map (cond_text d) on) ++ rest)) as (t1 & L1 & P1); [ending|].
  exists (t1 ++ Word (B"ON") :: t2). split.
  - apply (lexed_app d _ _ _ _ _ L1). fx (B" ON ") [Word (B"ON")]. exact L2.
  - intros more M. unfold joined. rewrite <- app_assoc. cbn [app]. rewrite P1 by reflexivity. words. rewrite (P2 more M). reflexivity.
Qed.
Definition nojoin (m : toks) : Prop := noand m /\ kw (B"join") m = None.
Definition good_join (s : sql_join) : Prop := good_tid (sj_first s) /\ forall t on, In (t, on) (sj_rest s) -> good_tid t /\ good_conds on.
Lemma from_read marktext s : (forall r, lexed d (marktext ++ r) [Word (B"JOIN")] r) -> (forall r, ends (marktext ++ r)) -> good_join s ->
  Read d (from_clause d) ends nojoin (full_name d (sj_first s) ++ flat_map (fun j => marktext ++ full_name d (fst j) ++ B" ON " ++ join (B" AND ") (map (cond_text d) (snd j))) (sj_rest s)) s.
Proof.
  intros Hl He [G C] rest R. rewrite <- app_assoc.
  destruct (many_read d (joined d) ends noand (fun j => full_name d (fst j) ++ B" ON " ++ join (B" AND ") (map (cond_text d) (snd j))) (fun j => j) (kw (B"join")) marktext (Word (B"JOIN"))
    Hl He (fun m => conj eq_refl eq_refl) (fun m => eq_refl) (sj_rest s)) with (rest := rest) as (t2 & L2 & P2); [intros [t on] I; destruct (C t on I); apply joined_read; assumption|exact R|].
  destruct (table_ref_read (sj_first s) G (flat_map (fun j => marktext ++ full_name d (fst j) ++ B" ON " ++ join (B" AND ") (map (cond_text d) (snd j))) (sj_rest s) ++ rest)) as (t1 & L1 & P1).
  { destruct (sj_rest s) as [|j l]; [exact R|]. cbn [flat_map]. rewrite <- !app_assoc. apply He. }
  exists (t1 ++ t2). split; [exact (lexed_app d _ _ _ _ _ L1 L2)|]. intros more M. unfold from_clause. rewrite <- app_assoc.
  assert (nodot (t2 ++ more)) as Nd.
  { destruct M as [M1 M2]. specialize (P2 more (conj M1 M2)). unfold nodot. destruct t2 as [|x t2]; [exact (proj1 M1)|]. cbn [app] in *. destruct x; try reflexivity. cbn [sym]. destruct (ceqb_spec "." c) as [<-|X]; [|reflexivity].
    unfold many in P2. cbn [List.length many_ kw] in P2. injection P2 as _ P2. exfalso. apply (f_equal (@List.length token)) in P2. cbn [List.length] in P2. rewrite app_length in P2. lia. }
  rewrite (P1 _ Nd). cbn [andthen]. rewrite (P2 more M). cbn [andthen]. rewrite map_id. destruct s; reflexivity.
Qed.
Lemma sql_join_read s : good_join s -> Read d (from_clause d) ends nojoin (sql_join_text d s) s.
Proof.
  intros G. unfold sql_join_text. assert (E : flat_map (join_text d) (sj_rest s) = flat_map (fun j => (LF :: B"    JOIN ") ++ full_name d (fst j) ++ B" ON " ++ join (B" AND ") (map (cond_text d) (snd j))) (sj_rest s)).
  { apply flat_map_ext. intros [t on]. reflexivity. }
  rewrite E. apply from_read; [intros r; apply fixed_lexed; fix_text|intros r; ending|exact G].
Qed.
Definition nocomma (m : toks) : Prop := nodot m /\ sym "," m = None.
Lemma columns_read i (cols : list bytes) septext : (forall r, lexed d (septext ++ r) [Sym ","] r) -> (forall r, ends (septext ++ r)) -> good_tid i -> cols <> [] -> (forall c, In c cols -> good c) ->
  Read d (column_refs d) ends nocomma (join septext (map (column_text d i) cols)) (map (fun c => (i, c)) cols).
Proof.
  intros Hl He G N Gc. apply (tlist_read d (column_ref d) (sym ",") ends nodot septext (Sym ",")); try (intros; reflexivity); [exact Hl|exact He|exact N|]. intros c I. apply column_ref_read; [exact G|exact (Gc c I)].
Qed.
Lemma select_read i key s : good_tid i -> key <> [] -> (forall c, In c key -> good c) -> good_join s ->
  Read d (select_distinct d) ends nojoin (B"SELECT DISTINCT " ++ key_columns_text d i key ++ LF :: B"    FROM " ++ sql_join_text d s) (map (fun c => (i, c)) key, s).
Proof.
  intros G N Gc Gs rest R. rewrite <- !app_assoc. cbn [app]. rewrite <- app_assoc. destruct (sql_join_read s Gs rest R) as (t2 & L2 & P2).
  destruct (columns_read i key (B", ") (fixed_comma d) comma_ends G N Gc (LF :: B"    FROM " ++ sql_join_text d s ++ rest)) as (t1 & L1 & P1); [ending|].
  exists (Word (B"SELECT") :: Word (B"DISTINCT") :: t1 ++ Word (B"FROM") :: t2). split.
  - fx (B"SELECT DISTINCT ") [Word (B"SELECT"); Word (B"DISTINCT")]. apply (lexed_app d _ _ _ _ _ L1). fx (LF :: B"    FROM ") [Word (B"FROM")]. exact L2.
  - intros more M. unfold select_distinct. cbn [app]. words. rewrite <- app_assoc. cbn [app]. rewrite P1 by (split; reflexivity). words. rewrite (P2 more M). reflexivity.
Qed.
End Texts.
