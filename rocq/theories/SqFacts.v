(** Proofs about identifier quoting (ddl/sq.go:25-102). *)
From Verif Require Import GoStr GoStrFacts Keywords ModelSq SpecSql.

(** What the escaped text decodes to: a doubled quote that is followed by another
    byte loses one of its halves. *)
Fixpoint collapse (q : ascii) (s : bytes) : bytes :=
  match s with
  | [] => []
  | x :: s' =>
      if ceqb x q then
        match s' with
        | y :: ((_ :: _) as s'') => if ceqb y q then q :: collapse q s'' else q :: collapse q s'
        | _ => q :: collapse q s'
        end
      else x :: collapse q s'
  end.

(** One unfolding step of both functions, by cases. *)
Lemma list_len_ind {A} (P : list A -> Prop) :
  (forall s, (forall t, List.length t < List.length s -> P t) -> P s) -> forall s, P s.
Proof.
  intros H s. remember (List.length s) as n eqn:Hn. revert s Hn.
  induction n as [n IH] using lt_wf_ind. intros s ->. apply H.
  intros t Ht. eapply IH; [exact Ht | reflexivity].
Qed.

Lemma escape_cases q (s : bytes) :
  s = [] \/
  (exists x s', s = x :: s' /\ x <> q /\ escape_quote q s = x :: escape_quote q s' /\ collapse q s = x :: collapse q s') \/
  (exists c s'', s = q :: q :: c :: s'' /\ escape_quote q s = q :: q :: escape_quote q (c :: s'')
                 /\ collapse q s = q :: collapse q (c :: s'')) \/
  (exists s', s = q :: s' /\ (forall c s'', s' <> q :: c :: s'')
              /\ escape_quote q s = q :: q :: escape_quote q s' /\ collapse q s = q :: collapse q s').
Proof.
  destruct s as [|x s']; [left; reflexivity|right].
  destruct (ceqb_spec x q) as [->|Hx].
  - right. destruct s' as [|y [|c s'']].
    + right. exists []. cbn. rewrite ceqb_refl. repeat split; congruence.
    + right. exists [y]. cbn. rewrite ceqb_refl. repeat split; congruence.
    + destruct (ceqb_spec y q) as [->|Hy].
      * left. exists c, s''. cbn. rewrite ceqb_refl. repeat split.
      * right. exists (y :: c :: s'').
        cbn [escape_quote collapse]. rewrite ceqb_refl.
        apply ceqb_neq in Hy. rewrite Hy. apply ceqb_neq in Hy.
        repeat split. intros c0 s0 [= -> -> ->]. congruence.
  - left. exists x, s'. cbn [escape_quote collapse].
    pose proof (proj2 (ceqb_neq x q) Hx) as E. rewrite E. repeat split; exact Hx.
Qed.

Lemma lex_escape q s rest :
  hd_error rest <> Some q ->
  lex_quoted q (escape_quote q s ++ q :: rest) = Some (collapse q s, rest).
Proof.
  intros Hr. induction s as [s IH] using list_len_ind.
  destruct (escape_cases q s) as [->|[(x & s' & -> & Hx & -> & ->)|[(c & s'' & -> & -> & ->)|(s' & -> & _ & -> & ->)]]].
  - cbn. rewrite ceqb_refl. destruct rest as [|c rest]; [reflexivity|].
    destruct (ceqb_spec c q) as [->|Hn]; [exfalso; apply Hr; reflexivity | reflexivity].
  - cbn [app lex_quoted]. apply ceqb_neq in Hx. rewrite Hx.
    rewrite (IH s') by (cbn [List.length]; lia). reflexivity.
  - cbn [app lex_quoted]. rewrite ceqb_refl.
    rewrite (IH (c :: s'')) by (cbn [List.length]; lia). reflexivity.
  - cbn [app lex_quoted]. rewrite ceqb_refl.
    rewrite (IH s') by (cbn [List.length]; lia). reflexivity.
Qed.

Lemma collapse_length q s : List.length (collapse q s) <= List.length s.
Proof.
  induction s as [s IH] using list_len_ind.
  destruct (escape_cases q s) as [->|[(x & s' & -> & Hx & _ & ->)|[(c & s'' & -> & _ & ->)|(s' & -> & _ & _ & ->)]]];
    cbn [List.length].
  - cbn. lia.
  - specialize (IH s' ltac:(cbn; lia)). lia.
  - specialize (IH (c :: s'') ltac:(cbn; lia)). cbn [List.length] in IH. lia.
  - specialize (IH s' ltac:(cbn; lia)). lia.
Qed.

Lemma collapse_id_iff q s :
  collapse q s = s <-> ~ (exists a c b, s = a ++ q :: q :: c :: b).
Proof.
  induction s as [s IH] using list_len_ind.
  destruct (escape_cases q s) as [->|[(x & s' & -> & Hx & _ & E)|[(c & s'' & -> & _ & E)|(s' & -> & Hs & _ & E)]]].
  - split; [|reflexivity]. intros _ (a & c & b & H). destruct a; discriminate.
  - rewrite E. specialize (IH s' ltac:(cbn; lia)). split.
    + intros [= H]. apply IH in H. intros (a & c & b & Hab). apply H.
      destruct a as [|y a]; [injection Hab; congruence|].
      injection Hab as _ ->. exists a, c, b. reflexivity.
    + intros H. f_equal. apply IH. intros (a & c & b & ->). apply H.
      exists (x :: a), c, b. reflexivity.
  - rewrite E. split.
    + intros H. exfalso. pose proof (collapse_length q (c :: s'')) as Hl.
      apply (f_equal (@List.length ascii)) in H. cbn [List.length] in H, Hl. lia.
    + intros H. exfalso. apply H. exists [], c, s''. reflexivity.
  - rewrite E. specialize (IH s' ltac:(cbn; lia)). split.
    + intros [= H]. apply IH in H. intros (a & c & b & Hab).
      destruct a as [|y a].
      * injection Hab as ->. eapply Hs. reflexivity.
      * injection Hab as _ ->. apply H. exists a, c, b. reflexivity.
    + intros H. f_equal. apply IH. intros (a & c & b & ->). apply H.
      exists (q :: a), c, b. reflexivity.
Qed.

(** ** Unquoted identifiers *)
Lemma ident_char_continue c : ident_char c = true -> ident_continue c = true.
Proof.
  unfold ident_char, ident_continue, is_letter. intros H.
  destruct (ceqb c underscore), (is_digit c), (is_lower c); cbn in *; try discriminate;
    rewrite ?orb_true_r; reflexivity.
Qed.

Lemma take_ident_app s rest :
  forallb ident_continue s = true -> delimited rest -> take_ident (s ++ rest) = (s, rest).
Proof.
  induction s as [|c s IH]; cbn [forallb app]; intros Hs Hr.
  - destruct rest as [|c rest]; [reflexivity|]. cbn [take_ident]. destruct Hr as [-> _]. reflexivity.
  - apply andb_true_iff in Hs as [Hc Hs]. cbn [take_ident]. rewrite Hc, IH by assumption. reflexivity.
Qed.

Lemma to_lower_ident c : ident_char c = true -> to_lower_c c = c.
Proof.
  unfold ident_char, to_lower_c. intros H.
  destruct (is_upper c) eqn:E; [|reflexivity]. exfalso.
  unfold is_upper in E. unfold is_digit, is_lower in H.
  apply andb_true_iff in E as [E1 E2]. apply Nat.leb_le in E1, E2.
  apply orb_true_iff in H as [H|H].
  - apply orb_true_iff in H as [H|H].
    + apply ceqb_eq in H. subst c. cbv in E2. lia.
    + apply andb_true_iff in H as [H1 H2]. apply Nat.leb_le in H1, H2. lia.
  - apply andb_true_iff in H as [H1 H2]. apply Nat.leb_le in H1, H2. lia.
Qed.

Lemma to_lower_idents s : forallb ident_char s = true -> to_lower s = s.
Proof.
  induction s as [|c s IH]; cbn [forallb]; intros H; [reflexivity|].
  apply andb_true_iff in H as [Hc Hs]. cbn. rewrite to_lower_ident by exact Hc.
  f_equal. apply IH. exact Hs.
Qed.

Lemma id_quotes d : id_open d = open_quote d /\ id_close d = close_quote d.
Proof. destruct d; split; reflexivity. Qed.

Lemma ident_start_char c s :
  is_digit c = false -> forallb ident_char (c :: s) = true -> ident_start c = true.
Proof.
  cbn [forallb]. intros Hd H. apply andb_true_iff in H as [H _].
  unfold ident_char in H. unfold ident_start, is_letter. rewrite Hd in H.
  destruct (ceqb c underscore), (is_lower c); cbn in *; try discriminate;
    rewrite ?orb_true_r; reflexivity.
Qed.

Lemma ident_start_not_open d c : ident_start c = true -> ceqb c (id_open d) = false.
Proof.
  intros H. apply ceqb_neq. intros ->. destruct d; cbv in H; discriminate.
Qed.

(** Every reserved word is in the keyword map of the code. *)
Lemma reserved_keywords d w : bmem w (keywords d) = false -> bmem w (reserved d) = false.
Proof.
  assert (H : forallb (fun w => bmem w (keywords d)) (reserved d) = true)
    by (destruct d; vm_compute; reflexivity).
  intros Hk. destruct (bmem w (reserved d)) eqn:E; [|reflexivity].
  apply bmem_In in E. rewrite forallb_forall in H. rewrite (H w E) in Hk. discriminate.
Qed.

(** The special names are read as unquoted identifiers. *)
Lemma special_facts d s :
  bmem s special_names = true ->
  exists c s', s = c :: s' /\ ident_start c = true /\ forallb ident_continue s = true
               /\ bmem (to_lower s) (reserved d) = false.
Proof.
  intros H. apply bmem_In in H. cbn in H.
  destruct H as [<-|[<-|[<-|[<-|[<-|[]]]]]];
    (eexists _, _; split; [reflexivity|]; split; [reflexivity|]; split; [reflexivity|];
     destruct d; vm_compute; reflexivity).
Qed.

Lemma delimited_hd d rest : delimited rest -> hd_error rest <> Some (close_quote d).
Proof.
  destruct rest as [|c rest]; cbn; [discriminate|].
  intros (_ & H1 & H2 & H3 & H4) [= ->]. destruct d; [apply H1|apply H1|apply H3|apply H4|apply H1]; reflexivity.
Qed.

(** The name denoted by the text that [quote_identifier] produces. *)
Definition denoted (d : dialect) (s : bytes) : bytes :=
  if needs_quoting d s then collapse (close_quote d) s else fold_ident d s.

Lemma lex_quote_identifier d s rest :
  delimited rest ->
  lex_ident d (quote_identifier d s ++ rest) = Some (denoted d s, rest).
Proof.
  intros Hr. unfold quote_identifier, denoted.
  destruct (id_quotes d) as [Ho Hc].
  destruct (needs_quoting d s) eqn:E.
  - unfold lex_ident. cbn [app]. rewrite Ho, ceqb_refl, Hc, <- app_assoc. cbn [app].
    apply lex_escape. apply delimited_hd. exact Hr.
  - unfold needs_quoting in E. destruct s as [|c s]; [discriminate|].
    destruct (bmem (c :: s) special_names) eqn:Es.
    + destruct (special_facts d _ Es) as (c' & s' & [= <- <-] & H1 & H2 & H3).
      unfold lex_ident. cbn [app]. rewrite (ident_start_not_open d c H1), H1.
      change (c :: s ++ rest) with ((c :: s) ++ rest).
      rewrite take_ident_app by assumption. rewrite H3. reflexivity.
    + destruct (is_digit c) eqn:Ed; [discriminate|]. cbn [orb] in E.
      destruct (negb (forallb ident_char (c :: s))) eqn:Ef; [discriminate|].
      apply negb_false_iff in Ef.
      pose proof (ident_start_char c s Ed Ef) as H1.
      unfold lex_ident. cbn [app]. rewrite (ident_start_not_open d c H1), H1.
      change (c :: s ++ rest) with ((c :: s) ++ rest).
      rewrite take_ident_app; [| |exact Hr].
      * rewrite (reserved_keywords d _ E). reflexivity.
      * apply forallb_forall. intros x Hx. apply ident_char_continue.
        rewrite forallb_forall in Ef. apply Ef. exact Hx.
Qed.

(** A name round-trips exactly when it does not contain a doubled closing quote
    followed by another byte (and is not one of the five pseudo-tables, which are
    case-folded by Postgres). *)
Lemma denoted_id_iff d s :
  bmem s special_names = false ->
  denoted d s = s <->
  ~ (exists a c b, s = a ++ close_quote d :: close_quote d :: c :: b).
Proof.
  intros Hs. unfold denoted. destruct (needs_quoting d s) eqn:E.
  - apply collapse_id_iff.
  - unfold needs_quoting in E. destruct s as [|c s]; [discriminate|].
    rewrite Hs in E. destruct (is_digit c) eqn:Ed; [discriminate|]. cbn [orb] in E.
    destruct (negb (forallb ident_char (c :: s))) eqn:Ef; [discriminate|].
    apply negb_false_iff in Ef.
    assert (Hl : fold_ident d (c :: s) = c :: s).
    { destruct d; cbn [fold_ident]; try reflexivity. apply to_lower_idents. exact Ef. }
    rewrite Hl. split; [|reflexivity].
    intros _ (a & x & b & Hab). rewrite Hab in Ef.
    rewrite forallb_app in Ef. apply andb_true_iff in Ef as [_ Ef]. cbn [forallb] in Ef.
    apply andb_true_iff in Ef as [Ef _]. destruct d; cbv in Ef; discriminate.
Qed.
