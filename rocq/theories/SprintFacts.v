(** Proofs about literals (ddl/sq.go:494-677). *)
From Verif Require Import GoStr GoStrFacts ModelSq SpecSql.
From Coq Require Import ZifyBool ZifyNat ZifyN.

Lemma lex_string_lit s rest :
  hd_error rest <> Some squote ->
  lex_quoted squote (replace_byte squote [squote; squote] s ++ squote :: rest) = Some (s, rest).
Proof.
  intros Hr. induction s as [|c s IH].
  - cbn. destruct rest as [|c rest]; [reflexivity|].
    destruct (ceqb_spec c squote) as [->|Hn]; [exfalso; apply Hr; reflexivity|].
    cbn. destruct (ceqb_spec c squote); [congruence | reflexivity].
  - unfold replace_byte in *. cbn [flat_map]. destruct (ceqb_spec c squote) as [->|Hn].
    + cbn [app]. cbn [lex_quoted]. rewrite ceqb_refl, IH. reflexivity.
    + cbn [app lex_quoted]. apply ceqb_neq in Hn. rewrite Hn, IH. reflexivity.
Qed.

Lemma lex_string_lit_bs s rest :
  ~ In backslash s ->
  hd_error rest <> Some squote ->
  lex_quoted_bs squote (replace_byte squote [squote; squote] s ++ squote :: rest) = Some (s, rest).
Proof.
  intros Hb Hr. induction s as [|c s IH].
  - cbn. destruct rest as [|c rest]; [reflexivity|].
    destruct (ceqb_spec c squote) as [->|Hn]; [exfalso; apply Hr; reflexivity|].
    cbn. destruct (ceqb_spec c squote); [congruence | reflexivity].
  - assert (Hc : c <> backslash) by (intros ->; apply Hb; left; reflexivity).
    assert (Hb' : ~ In backslash s) by (intros Hi; apply Hb; right; exact Hi).
    specialize (IH Hb'). unfold replace_byte in *. cbn [flat_map].
    destruct (ceqb_spec c squote) as [->|Hn].
    + cbn [app]. cbn [lex_quoted_bs]. change (ceqb squote backslash) with false.
      rewrite ceqb_refl, IH. reflexivity.
    + cbn [app lex_quoted_bs]. apply ceqb_neq in Hn, Hc. rewrite Hn, Hc, IH. reflexivity.
Qed.

(** [t] is the text of a primitive with value [v]. *)
Definition prim_ok (d : dialect) (t v : bytes) : Prop :=
  t <> [] /\
  forall rest, hd_error rest <> Some squote -> eval_prim d (t ++ rest) = Some (v, rest).

(** Strings whose literals a dialect reads back verbatim. *)
Definition lit_safe (d : dialect) (s : bytes) : Prop := d = MySQL -> ~ In backslash s.

Lemma string_lit_ok d s : lit_safe d s -> prim_ok d (string_lit s) s.
Proof.
  intros Hs. split; [discriminate|]. intros rest Hr. unfold eval_prim, string_lit.
  change ((squote :: replace_byte squote [squote; squote] s ++ [squote]) ++ rest)
    with (B"'" ++ ((replace_byte squote [squote; squote] s ++ [squote]) ++ rest)).
  rewrite strip_prefix_app, <- app_assoc. cbn [app].
  destruct d; cbn [lex_strlit]; try (apply lex_string_lit; exact Hr).
  apply lex_string_lit_bs; [apply Hs; reflexivity | exact Hr].
Qed.

Lemma chr_call_ok d c : is_nl c = true -> prim_ok d (chr_call d c) [c].
Proof.
  intros Hc. unfold is_nl in Hc. split.
  - destruct d; discriminate.
  - intros rest _.
    apply orb_true_iff in Hc. destruct Hc as [Hc|Hc]; apply ceqb_eq in Hc; subst c;
      destruct d; reflexivity.
Qed.

(** The list of primitives printed for a string. *)
Fixpoint pieces (d : dialect) (seg s : bytes) : list (bytes * bytes) :=
  match s with
  | [] => match seg with [] => [] | _ => [(string_lit seg, seg)] end
  | c :: s' =>
      if is_nl c then
        (match seg with [] => [] | _ => [(string_lit seg, seg)] end)
        ++ (chr_call d c, [c]) :: pieces d [] s'
      else pieces d (seg ++ [c]) s'
  end.

Lemma pieces_nonempty d seg s : seg <> [] \/ s <> [] -> pieces d seg s <> [].
Proof.
  revert seg; induction s as [|c s IH]; intros seg H; cbn [pieces].
  - destruct seg; [destruct H; congruence | discriminate].
  - destruct (is_nl c); [destruct seg; discriminate|].
    apply IH. left. destruct seg; discriminate.
Qed.

Lemma sprint_loop_pieces d seg s :
  sprint_loop d seg s = join (concat_sep d) (map fst (pieces d seg s)).
Proof.
  revert seg; induction s as [|c s IH]; intros seg; cbn [sprint_loop pieces].
  - destruct seg; reflexivity.
  - destruct (is_nl c) eqn:Ec; [|apply IH].
    assert (Ht : chr_call d c ++ (match s with [] => [] | _ => concat_sep d end) ++ sprint_loop d [] s
                 = join (concat_sep d) (map fst ((chr_call d c, [c]) :: pieces d [] s))).
    { cbn [map fst]. rewrite IH. destruct s as [|x s].
      - cbn. rewrite app_nil_r. reflexivity.
      - rewrite join_cons; [reflexivity|].
        intros Hm. apply map_eq_nil in Hm. revert Hm. apply pieces_nonempty. right. discriminate. }
    rewrite Ht. destruct seg as [|x seg]; [reflexivity|].
    cbn [app]. cbn [map]. rewrite (join_cons _ (fst (string_lit (x :: seg), x :: seg)))
      by (cbn; congruence).
    rewrite <- app_assoc. reflexivity.
Qed.

Lemma pieces_values d seg s : List.concat (map snd (pieces d seg s)) = seg ++ s.
Proof.
  revert seg; induction s as [|c s IH]; intros seg; cbn [pieces].
  - destruct seg; cbn; rewrite ?app_nil_r; reflexivity.
  - destruct (is_nl c).
    + rewrite map_app, concat_app. cbn [map snd List.concat]. rewrite IH. cbn [app].
      destruct seg; cbn; rewrite ?app_nil_r; reflexivity.
    + rewrite IH, <- app_assoc. reflexivity.
Qed.

Lemma pieces_ok d seg s :
  lit_safe d (seg ++ s) ->
  Forall (fun p => prim_ok d (fst p) (snd p)) (pieces d seg s).
Proof.
  revert seg; induction s as [|c s IH]; intros seg Hs; cbn [pieces].
  - destruct seg as [|x seg]; constructor; [|constructor].
    apply string_lit_ok. rewrite app_nil_r in Hs. exact Hs.
  - destruct (is_nl c) eqn:Ec.
    + apply Forall_app. split.
      * destruct seg as [|x seg]; constructor; [|constructor].
        apply string_lit_ok. intros E. specialize (Hs E). intros Hi. apply Hs.
        apply in_or_app. left. exact Hi.
      * constructor; [apply chr_call_ok; exact Ec|]. apply IH.
        intros E. specialize (Hs E). intros Hi. apply Hs.
        apply in_or_app. right. right. exact Hi.
    + apply IH. rewrite <- app_assoc. exact Hs.
Qed.

Lemma eval_list_pieces d sep ps rest fuel :
  ps <> [] ->
  Forall (fun p => prim_ok d (fst p) (snd p)) ps ->
  (forall x, hd_error (sep ++ x) <> Some squote) ->
  hd_error rest <> Some squote ->
  strip_prefix sep rest = None ->
  List.length ps <= fuel ->
  eval_list fuel d sep (join sep (map fst ps) ++ rest) = Some (map snd ps, rest).
Proof.
  intros Hne Hok Hsep Hr Hs. revert fuel; induction Hok as [|[t v] ps [Ht Hp] Hok IH]; intros fuel Hf; [congruence|].
  destruct fuel as [|fuel]; [cbn in Hf; lia|]. cbn [fst snd] in *. cbn [map fst snd].
  destruct ps as [|p ps].
  - cbn [map join]. cbn [eval_list]. rewrite Hp by exact Hr. rewrite Hs. reflexivity.
  - rewrite join_cons by discriminate. rewrite <- !app_assoc. cbn [eval_list].
    rewrite Hp by apply Hsep. rewrite strip_prefix_app.
    rewrite IH; [reflexivity | discriminate | cbn [List.length] in *; lia].
Qed.

(** Every primitive is non-empty, so fuel given by the length of the text suffices. *)
Lemma join_length_ge sep (l : list bytes) :
  Forall (fun t => t <> []) l -> List.length l <= List.length (join sep l).
Proof.
  induction 1 as [|t l Ht Hl IH]; [cbn; lia|].
  destruct l as [|t' l].
  - cbn. destruct t; [congruence | cbn; lia].
  - rewrite join_cons by discriminate. rewrite !app_length. cbn [List.length] in *.
    destruct t; [congruence | cbn [List.length]; lia].
Qed.

Lemma pieces_fuel d s :
  lit_safe d s ->
  List.length (pieces d [] s) <= List.length (sprint_loop d [] s).
Proof.
  intros Hs. rewrite sprint_loop_pieces, <- (map_length fst). apply join_length_ge.
  apply Forall_map. eapply Forall_impl; [|apply (pieces_ok d [] s Hs)].
  intros p [H _]. exact H.
Qed.

(** [rest] may follow a string expression: it neither continues the literal nor the
    concatenation. *)
Definition expr_end (d : dialect) (rest : bytes) : Prop :=
  hd_error rest <> Some squote /\ strip_prefix (concat_sep d) rest = None.

Lemma eval_sprint_infix d s rest :
  uses_concat d = false ->
  expr_end d rest ->
  eval_string d (sprint_string d s ++ rest) = Some (s, rest).
Proof.
  intros Hd [Hr1 Hr2].
  assert (Hsafe : lit_safe d s) by (intros ->; discriminate).
  assert (Hst : sprint_string d s = if existsb is_nl s then sprint_loop d [] s else string_lit s).
  { unfold sprint_string. rewrite Hd. destruct (existsb is_nl s); [|reflexivity].
    apply app_nil_r. }
  rewrite Hst. clear Hst.
  assert (Heq : forall x, eval_string d x
    = match eval_list (S (List.length x)) d (concat_sep d) x with
      | Some (vs, rest) => Some (List.concat vs, rest)
      | None => None
      end).
  { intros x. destruct d; try discriminate; reflexivity. }
  rewrite Heq. clear Heq.
  assert (Hsep : forall x, hd_error (concat_sep d ++ x) <> Some squote).
  { intros x. unfold concat_sep. rewrite Hd. discriminate. }
  destruct (existsb is_nl s) eqn:En.
  - assert (Hne : pieces d [] s <> []).
    { apply pieces_nonempty. right. intros ->. discriminate. }
    pose proof (pieces_fuel d s Hsafe) as Hf.
    rewrite sprint_loop_pieces in *.
    rewrite eval_list_pieces; try assumption.
    + rewrite pieces_values. reflexivity.
    + apply pieces_ok. exact Hsafe.
    + rewrite app_length. lia.
  - change (string_lit s) with (join (concat_sep d) (map fst [(string_lit s, s)])).
    rewrite eval_list_pieces; try assumption.
    + cbn. rewrite app_nil_r. reflexivity.
    + discriminate.
    + constructor; [apply string_lit_ok; exact Hsafe | constructor].
    + cbn [List.length]. lia.
Qed.

Lemma eval_sprint_concat d s rest :
  uses_concat d = true ->
  lit_safe d s ->
  (existsb is_nl s = true -> concat_arity_ok d (List.length (pieces d [] s)) = true) ->
  hd_error rest <> Some squote ->
  eval_string d (sprint_string d s ++ rest) = Some (s, rest).
Proof.
  intros Hd Hsafe Har Hr. unfold sprint_string. rewrite Hd.
  destruct (existsb is_nl s) eqn:En.
  - assert (Hne : pieces d [] s <> []).
    { apply pieces_nonempty. right. intros ->. discriminate. }
    pose proof (pieces_fuel d s Hsafe) as Hf.
    rewrite <- !app_assoc.
    assert (Heq : forall x, eval_string d (B"CONCAT(" ++ x)
      = match eval_list (S (List.length (B"CONCAT(" ++ x))) d (B", ") x with
        | Some (vs, rest) =>
            match strip_prefix (B")") rest with
            | Some rest' => if concat_arity_ok d (List.length vs) then Some (List.concat vs, rest') else None
            | None => None
            end
        | None => None
        end).
    { intros x. destruct d; try discriminate; unfold eval_string;
        rewrite strip_prefix_app; reflexivity. }
    rewrite Heq. clear Heq.
    assert (Esep : concat_sep d = B", ") by (unfold concat_sep; rewrite Hd; reflexivity).
    rewrite sprint_loop_pieces in *. rewrite Esep in *.
    rewrite eval_list_pieces; try assumption.
    + rewrite strip_prefix_app, map_length. rewrite Har by reflexivity.
      rewrite pieces_values. reflexivity.
    + apply pieces_ok. exact Hsafe.
    + discriminate.
    + discriminate.
    + reflexivity.
    + rewrite !app_length. lia.
  - assert (Heq : eval_string d (string_lit s ++ rest) = eval_prim d (string_lit s ++ rest))
      by (destruct d; try discriminate; reflexivity).
    rewrite Heq. apply string_lit_ok; assumption.
Qed.

(** Number of primitives printed. *)
Lemma pieces_count_upper d seg s :
  List.length (pieces d seg s) <= 2 * List.length (filter is_nl s) + 1.
Proof.
  revert seg; induction s as [|c s IH]; intros seg; cbn [pieces filter].
  - destruct seg; cbn; lia.
  - destruct (is_nl c); [|apply IH]. cbn [List.length]. rewrite app_length. cbn [List.length].
    specialize (IH []). destruct seg; cbn [List.length]; lia.
Qed.

Lemma pieces_count_lower d s :
  existsb is_nl s = true -> 2 <= List.length s -> 2 <= List.length (pieces d [] s).
Proof.
  assert (H : forall s seg, seg <> [] -> existsb is_nl s = true -> 2 <= List.length (pieces d seg s)).
  { clear s. induction s as [|c s IH]; intros seg Hseg Hn; [discriminate|]. cbn [pieces existsb] in *.
    destruct (is_nl c).
    - rewrite app_length. destruct seg; [congruence|]. cbn [List.length]. lia.
    - apply IH; [destruct seg; discriminate | exact Hn]. }
  intros Hn Hl. destruct s as [|c s]; [discriminate|]. cbn [pieces existsb List.length] in *.
  destruct (is_nl c).
  - cbn [app List.length].
    assert (pieces d [] s <> []).
    { apply pieces_nonempty. right. destruct s; [cbn in Hl; lia | discriminate]. }
    destruct (pieces d [] s); [congruence | cbn [List.length]; lia].
  - apply H; [discriminate | exact Hn].
Qed.

(** ** Other constants *)
Lemma hexval_hexdigit n : n < 16 -> hexval (hexdigit n) = Some n.
Proof.
  intros H. do 16 (destruct n as [|n]; [reflexivity|]). lia.
Qed.

Lemma hex_decode_encode s : hex_decode (hex_encode s) = Some s.
Proof.
  induction s as [|c s IH]; [reflexivity|].
  unfold hex_encode in *. cbn [flat_map app hex_decode].
  pose proof (cn_bound c) as Hb.
  assert (H1 : cn c / 16 < 16) by (apply Nat.div_lt_upper_bound; lia).
  assert (H2 : cn c mod 16 < 16) by (apply Nat.mod_upper_bound; lia).
  rewrite !hexval_hexdigit, IH by assumption.
  rewrite <- (Nat.div_mod (cn c) 16) by lia.
  unfold cn. rewrite ascii_nat_embedding. reflexivity.
Qed.

Lemma hexdigit_not_quote n : n < 16 -> hexdigit n <> squote.
Proof. intros H. do 16 (destruct n as [|n]; [discriminate|]). lia. Qed.

Lemma hex_encode_no_quote s : ~ In squote (hex_encode s).
Proof.
  induction s as [|c s IH]; [intros []|].
  pose proof (cn_bound c) as Hb.
  assert (H1 : cn c / 16 < 16) by (apply Nat.div_lt_upper_bound; lia).
  assert (H2 : cn c mod 16 < 16) by (apply Nat.mod_upper_bound; lia).
  unfold hex_encode in *. cbn [flat_map app In].
  intros [H|[H|H]]; [eapply hexdigit_not_quote; [exact H1|exact H]
                    |eapply hexdigit_not_quote; [exact H2|exact H]
                    |exact (IH H)].
Qed.

Lemma lex_quoted_plain q s rest :
  ~ In q s -> hd_error rest <> Some q -> lex_quoted q (s ++ q :: rest) = Some (s, rest).
Proof.
  intros Hs Hr. induction s as [|c s IH]; cbn [app lex_quoted].
  - rewrite ceqb_refl. destruct rest as [|c rest]; [reflexivity|].
    destruct (ceqb_spec c q) as [->|Hn]; [exfalso; apply Hr; reflexivity|reflexivity].
  - destruct (ceqb_spec c q) as [->|Hn]; [exfalso; apply Hs; left; reflexivity|].
    rewrite IH; [reflexivity|]. intros Hi. apply Hs. right. exact Hi.
Qed.

Lemma eval_bytes_sprint d s t : sprint d (VBytes s) = Ok t -> eval_bytes d t = Some s.
Proof.
  intros H. unfold sprint in H. apply (f_equal (fun r => match r with Ok x => x | _ => [] end)) in H.
  cbv beta iota in H. subst t. destruct d; unfold eval_bytes.
  - rewrite strip_prefix_app. change (B"'") with [squote].
    rewrite cut_byte_app by apply hex_encode_no_quote. apply hex_decode_encode.
  - change (B"'\x" ++ hex_encode s ++ B"'") with (B"'" ++ ((B"\x" ++ hex_encode s) ++ [squote])).
    rewrite strip_prefix_app. rewrite lex_quoted_plain.
    + cbv beta iota. rewrite strip_prefix_app. apply hex_decode_encode.
    + intros Hi. apply in_app_or in Hi as [Hi|Hi].
      * cbn in Hi. destruct Hi as [Hi|[Hi|[]]]; discriminate.
      * eapply hex_encode_no_quote. exact Hi.
    + discriminate.
  - rewrite strip_prefix_app. change (B"'") with [squote].
    rewrite cut_byte_app by apply hex_encode_no_quote. apply hex_decode_encode.
  - rewrite strip_prefix_app. apply hex_decode_encode.
  - rewrite strip_prefix_app. change (B"'") with [squote].
    rewrite cut_byte_app by apply hex_encode_no_quote. apply hex_decode_encode.
Qed.

Lemma N_dec_not_minus n : match N_dec n with c :: _ => ceqb c "-"%char = false | [] => True end.
Proof.
  pose proof (N_dec_digits n) as H. destruct (N_dec n) as [|c s]; [exact I|].
  inversion H as [|? ? Hc _]; subst. apply ceqb_neq. intros ->. discriminate.
Qed.

Lemma eval_int_N_dec n : eval_int (N_dec n) = Some (Z.of_N n).
Proof.
  pose proof (N_dec_not_minus n) as H. pose proof (dec_N_N_dec n) as E.
  unfold eval_int. destruct (N_dec n) as [|c s]; [discriminate|].
  rewrite H, E. reflexivity.
Qed.

Lemma eval_int_sprint d z t : sprint d (VInt z) = Ok t -> eval_int t = Some z.
Proof.
  intros [= <-]. destruct z as [|p|p]; unfold Z_dec; try apply eval_int_N_dec.
  unfold eval_int. rewrite ceqb_refl, dec_N_N_dec. reflexivity.
Qed.

Lemma eval_bool_sprint d b t : sprint d (VBool b) = Ok t -> eval_bool d t = Some b.
Proof. intros [= <-]. destruct d, b; reflexivity. Qed.
