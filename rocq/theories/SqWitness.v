(** Final forms and concrete witnesses for properties C01-C06. *)
From Verif Require Import GoStr GoStrFacts Keywords ModelSq SpecSql SpecSprintf.
From Verif Require Import SqFacts SprintFacts SprintfFacts.
From Coq Require Import ZifyBool ZifyNat.

Lemma one_token d s rest :
  delimited rest ->
  exists name, lex_ident d (quote_identifier d s ++ rest) = Some (name, rest).
Proof. intros H. eexists. apply lex_quote_identifier. exact H. Qed.

Lemma quote_not_injective :
  exists d s1 s2, s1 <> s2 /\ quote_identifier d s1 = quote_identifier d s2
    /\ lex_ident d (quote_identifier d s1) = Some (s2, []).
Proof.
  exists Postgres, (B"a""""b"), (B"a""b"). repeat split; try (vm_compute; reflexivity).
  vm_compute. discriminate.
Qed.

Lemma special_folds :
  exists s, lex_ident Postgres (quote_identifier Postgres s) = Some (to_lower s, []) /\ to_lower s <> s.
Proof. exists (B"NEW"). split; [vm_compute; reflexivity | vm_compute; discriminate]. Qed.

Lemma denotes_name d s rest :
  delimited rest ->
  ~ In s (map B ["EXCLUDED"; "INSERTED"; "DELETED"; "NEW"; "OLD"]%string) ->
  lex_ident d (quote_identifier d s ++ rest) = Some (s, rest)
  <-> ~ (exists a c b, s = a ++ id_close d :: id_close d :: c :: b).
Proof.
  intros Hr Hs. rewrite lex_quote_identifier by exact Hr.
  rewrite (proj2 (id_quotes d)). rewrite <- denoted_id_iff.
  - split; [intros [= H]; exact H | intros ->; reflexivity].
  - apply bmem_not_In. exact Hs.
Qed.

Lemma quote_injective d s1 s2 :
  lex_ident d (quote_identifier d s1) = Some (s1, []) ->
  lex_ident d (quote_identifier d s2) = Some (s2, []) ->
  quote_identifier d s1 = quote_identifier d s2 -> s1 = s2.
Proof. intros H1 H2 E. rewrite E, H2 in H1. congruence. Qed.

Lemma string_infix d s rest :
  d = SQLite \/ d = Postgres \/ d = Other ->
  hd_error rest <> Some "'"%char -> strip_prefix (B" || ") rest = None ->
  eval_string d (sprint_string d s ++ rest) = Some (s, rest).
Proof.
  intros Hd H1 H2. apply eval_sprint_infix.
  - destruct Hd as [->|[->| ->]]; reflexivity.
  - split; [exact H1|]. destruct Hd as [->|[->| ->]]; exact H2.
Qed.

Lemma mysql_backslash :
  (exists s s', s' <> s /\ eval_string MySQL (sprint_string MySQL s) = Some (s', [])) /\
  (exists s, eval_string MySQL (sprint_string MySQL s) = None).
Proof.
  split.
  - exists (B"C:\new"), (B"C:" ++ [LF] ++ B"ew"). split; [discriminate | vm_compute; reflexivity].
  - exists (B"\"). vm_compute. reflexivity.
Qed.

Lemma mysql_injection :
  exists s v tail, eval_string MySQL (sprint_string MySQL s) = Some (v, tail) /\ tail <> [].
Proof.
  exists (B"\'; DROP TABLE t; -- "), (B"'"), (B"; DROP TABLE t; -- '").
  split; [vm_compute; reflexivity | discriminate].
Qed.

Lemma string_mysql s rest :
  ~ In backslash s -> hd_error rest <> Some "'"%char ->
  eval_string MySQL (sprint_string MySQL s ++ rest) = Some (s, rest).
Proof.
  intros Hs Hr. apply eval_sprint_concat; trivial.
  - intros _. exact Hs.
  - intros Hn. pose proof (pieces_nonempty MySQL [] s) as Hp.
    destruct (pieces MySQL [] s); [|reflexivity]. exfalso. apply Hp; [|reflexivity].
    right. intros ->. discriminate.
Qed.

Lemma sqlserver_concat :
  exists s, eval_string SQLServer (sprint_string SQLServer s) = None.
Proof. exists [LF]. vm_compute. reflexivity. Qed.

Lemma string_sqlserver s rest :
  s <> [LF] -> s <> [CR] ->
  List.length (filter (fun c => ceqb c CR || ceqb c LF) s) <= 126 ->
  hd_error rest <> Some "'"%char ->
  eval_string SQLServer (sprint_string SQLServer s ++ rest) = Some (s, rest).
Proof.
  intros H1 H2 Hc Hr. apply eval_sprint_concat; trivial; [discriminate|].
  intros Hn. pose proof (pieces_count_upper SQLServer [] s) as Hu.
  change (filter is_nl s) with (filter (fun c => ceqb c CR || ceqb c LF) s) in Hu.
  assert (Hl : 2 <= List.length s).
  { destruct s as [|c [|c' s]]; [discriminate| |cbn; lia]. exfalso.
    cbn in Hn. rewrite orb_false_r in Hn. apply orb_true_iff in Hn as [Hn|Hn];
      apply ceqb_eq in Hn; subst c; congruence. }
  pose proof (pieces_count_lower SQLServer s Hn Hl) as Hlo.
  cbn [concat_arity_ok]. apply andb_true_iff. split; apply Nat.leb_le; lia.
Qed.

Lemma sprint_total d v :
  (forall r, v <> VLib r) ->
  exists t, sprint d v = Ok t /\ (t = B"NULL" <-> v = VNil).
Proof.
  intros H. destruct v as [|b|s|s|z|r]; [| | | | |exfalso; eapply H; reflexivity].
  - exists (B"NULL"). split; [reflexivity|]. tauto.
  - eexists. split; [reflexivity|]. split; [|discriminate]. destruct d, b; discriminate.
  - eexists. split; [reflexivity|]. split; [|discriminate]. destruct d; discriminate.
  - eexists. split; [reflexivity|]. split; [|discriminate].
    intros E. exfalso. revert E. unfold sprint_string.
    destruct (existsb is_nl s) eqn:En; [|discriminate].
    assert (Hp : pieces d [] s <> []) by (apply pieces_nonempty; right; intros ->; discriminate).
    assert (Hpo : Forall (fun p => exists c x, fst p = c :: x /\ c <> "N"%char) (pieces d [] s)).
    { clear. generalize (@nil ascii) as seg. induction s as [|c s IH]; intros seg; cbn [pieces].
      - destruct seg; repeat constructor. eexists _, _; split; [reflexivity|discriminate].
      - destruct (is_nl c); [|apply IH]. apply Forall_app. split.
        + destruct seg; repeat constructor. eexists _, _; split; [reflexivity|discriminate].
        + constructor; [|apply IH]. destruct d; (eexists _, _; split; [reflexivity|discriminate]). }
    rewrite sprint_loop_pieces. destruct (pieces d [] s) as [|[t v] ps]; [congruence|].
    inversion Hpo as [|? ? (c & x & Ec & Hc) _]; subst. cbn [fst] in Ec. subst t.
    cbn [map fst]. destruct (uses_concat d); [discriminate|].
    destruct (map fst ps); cbn; intros [= E _]; congruence.
  - eexists. split; [reflexivity|]. split; [|discriminate].
    intros E. exfalso. pose proof (eval_int_sprint d z (Z_dec z) eq_refl) as H'.
    rewrite E in H'. discriminate.
Qed.

Lemma sprintf_swaps :
  exists d q args out,
    sprintf d q args = Ok out /\
    toks d q [TMarker (B"?"); TQuoted (B"'x'")] /\
    out = B"'x'5".
Proof.
  exists SQLite, (B"?'x'"), [{| arg_name := None; arg_val := VInt 5 |}], (B"'x'5").
  split; [vm_compute; reflexivity|]. split; [|reflexivity].
  apply (toks_marker SQLite "?"%char [] (B"'x'")); try reflexivity.
  - intros c' r [= <- _]. reflexivity.
  - apply (toks_quoted SQLite "'"%char (B"x") [] []); try reflexivity; try discriminate.
    + constructor; [discriminate | constructor].
    + constructor.
Qed.

Lemma sprintf_adjacent :
  exists d q args,
    toks d q [TMarker (B"$1"); TMarker (B"$2")] /\
    subst_tokens d (text d) (pairs args) 0 [TMarker (B"$1"); TMarker (B"$2")] = Some (B"78") /\
    sprintf d q args = Ok (B"7$2").
Proof.
  exists Postgres, (B"$1$2"), [{| arg_name := None; arg_val := VInt 7 |}; {| arg_name := None; arg_val := VInt 8 |}].
  repeat split; try (vm_compute; reflexivity).
  apply (toks_marker Postgres "$"%char (B"1") (B"$2")); try reflexivity.
  - intros c' r [= <- _]. reflexivity.
  - apply (toks_marker Postgres "$"%char (B"2") []); try reflexivity; try discriminate. constructor.
Qed.

Lemma sprintf_no_args d q : sprintf d q [] = Ok q.
Proof. reflexivity. Qed.

Lemma sprintf_example :
  let args := [{| arg_name := None; arg_val := VString (B"it's") |};
               {| arg_name := Some (B"n"); arg_val := VInt 7 |}] in
  let ts := [TQuoted (B"'?'"); TOther SPACE; TMarker (B"?"); TOther SPACE; TMarker (B":n")] in
  toks SQLite (B"'?' ? :n") ts /\ separated SQLite ts /\
  sprintf SQLite (B"'?' ? :n") args = Ok (B"'?' 'it''s' 7").
Proof.
  cbv zeta. split; [|split; [cbn; tauto | vm_compute; reflexivity]].
  apply (toks_quoted SQLite "'"%char (B"?") (B" ? :n")); try reflexivity; try discriminate.
  { constructor; [discriminate | constructor]. }
  apply toks_other; try reflexivity.
  apply (toks_marker SQLite "?"%char [] (B" :n")); try reflexivity.
  { intros c' r [= <- _]. reflexivity. }
  apply toks_other; try reflexivity.
  apply (toks_marker SQLite ":"%char (B"n") []); try reflexivity; try discriminate.
  constructor.
Qed.

Lemma sprintf_panics : exists q args, sprintf SQLite q args = Panic.
Proof. exists (B"?, ?"), [{| arg_name := None; arg_val := VInt 1 |}]. vm_compute. reflexivity. Qed.
