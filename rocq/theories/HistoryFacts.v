(** Facts about the history table and file selection. *)
From Verif Require Import GoStr GoStrFacts ModelSq SpecSql SqFacts ModelHistory.

(** ** lookup and upsert *)
Lemma lookup_upsert f r h :
  lookup f (upsert r h) = if beqb (r_name r) f then Some r else lookup f h.
Proof.
  unfold lookup. induction h as [|x h IH]; cbn [upsert find].
  - destruct (beqb (r_name r) f); reflexivity.
  - destruct (beqb_spec (r_name x) (r_name r)) as [E|E]; cbn [find].
    + rewrite <- E. destruct (beqb (r_name x) f); reflexivity.
    + rewrite IH. destruct (beqb_spec (r_name r) f) as [E'|E']; [|reflexivity].
      destruct (beqb_spec (r_name x) f) as [E''|]; [congruence|reflexivity].
Qed.

Lemma lookup_upsert_other f rs h :
  ~ In f (map r_name rs) -> lookup f (upsert_all rs h) = lookup f h.
Proof.
  unfold upsert_all. revert h; induction rs as [|r rs IH]; intros h H; [reflexivity|].
  cbn [fold_left]. rewrite IH by (intros Hi; apply H; right; exact Hi).
  rewrite lookup_upsert. destruct (beqb_spec (r_name r) f) as [E|]; [|reflexivity].
  exfalso. apply H. left. exact E.
Qed.

Lemma upsert_all_app a b h : upsert_all (a ++ b) h = upsert_all b (upsert_all a h).
Proof. apply fold_left_app. Qed.

Lemma lookup_upsert_in r rs h :
  NoDup (map r_name rs) -> In r rs -> lookup (r_name r) (upsert_all rs h) = Some r.
Proof.
  revert h; induction rs as [|x rs IH]; intros h Hn Hi; [destruct Hi|].
  inversion Hn as [|? ? Hx Hn']; subst. unfold upsert_all in *. cbn [fold_left].
  destruct Hi as [->|Hi]; [|apply IH; assumption].
  fold (upsert_all rs (upsert r h)). rewrite lookup_upsert_other by exact Hx.
  rewrite lookup_upsert, beqb_refl. reflexivity.
Qed.

Lemma lookup_upsert_cases f rs h :
  (exists r, In r rs /\ r_name r = f /\ lookup f (upsert_all rs h) = Some r)
  \/ (~ In f (map r_name rs) /\ lookup f (upsert_all rs h) = lookup f h).
Proof.
  revert h; induction rs as [|x rs IH]; intros h.
  - right. split; [intros []|reflexivity].
  - unfold upsert_all. cbn [fold_left]. fold (upsert_all rs (upsert x h)).
    destruct (IH (upsert x h)) as [(r & Hr & E & ->)|[Hn ->]].
    + left. exists r. split; [right; exact Hr|]. split; [exact E|reflexivity].
    + rewrite lookup_upsert. destruct (beqb_spec (r_name x) f) as [E|E].
      * left. exists x. split; [left; reflexivity|]. split; [exact E|reflexivity].
      * right. split; [|reflexivity]. intros [H|H]; [exact (E H)|exact (Hn H)].
Qed.

Lemma lookup_name f h r : lookup f h = Some r -> r_name r = f.
Proof. unfold lookup. intros H. apply find_some in H as [_ H]. apply beqb_eq in H. exact H. Qed.

Lemma lookup_In f h r : lookup f h = Some r -> In r h.
Proof. unfold lookup. intros H. apply find_some in H. tauto. Qed.

(** Distinct names in the table are preserved. *)
Lemma upsert_names r h x : In x (map r_name (upsert r h)) <-> x = r_name r \/ In x (map r_name h).
Proof.
  induction h as [|y h IH]; cbn [upsert map]; [cbn; intuition congruence|].
  destruct (beqb_spec (r_name y) (r_name r)) as [E|E]; cbn [map In].
  - rewrite E. intuition congruence.
  - rewrite IH. intuition congruence.
Qed.

Lemma upsert_NoDup r h : NoDup (map r_name h) -> NoDup (map r_name (upsert r h)).
Proof.
  induction h as [|y h IH]; cbn [upsert map]; intros H.
  - constructor; [intros []|constructor].
  - inversion H as [|? ? Hy Hh]; subst.
    destruct (beqb_spec (r_name y) (r_name r)) as [E|E]; cbn [map].
    + rewrite <- E. exact H.
    + constructor; [|apply IH; exact Hh]. rewrite upsert_names. intros [H'|H']; [exact (E H')|exact (Hy H')].
Qed.

Lemma upsert_all_NoDup rs h : NoDup (map r_name h) -> NoDup (map r_name (upsert_all rs h)).
Proof.
  unfold upsert_all. revert h; induction rs as [|r rs IH]; intros h H; [exact H|].
  cbn [fold_left]. apply IH, upsert_NoDup, H.
Qed.

Lemma NoDup_lookup_In h r : NoDup (map r_name h) -> In r h -> lookup (r_name r) h = Some r.
Proof.
  unfold lookup. induction h as [|x h IH]; intros H Hi; [destruct Hi|]. cbn [find].
  inversion H as [|? ? Hx Hh]; subst. destruct Hi as [->|Hi]; [rewrite beqb_refl; reflexivity|].
  destruct (beqb_spec (r_name x) (r_name r)) as [E|E]; [|apply IH; assumption].
  exfalso. apply Hx. rewrite E. apply in_map. exact Hi.
Qed.

(** ** Queries *)
Lemma lookup_app f a b : lookup f (a ++ b) = match lookup f a with Some r => Some r | None => lookup f b end.
Proof.
  unfold lookup. induction a as [|x a IH]; [reflexivity|]. cbn [app find].
  destruct (beqb (r_name x) f); [reflexivity|exact IH].
Qed.

Lemma lookup_None f h : lookup f h = None <-> ~ In f (map r_name h).
Proof.
  unfold lookup. induction h as [|x h IH]; cbn [find map In]; [tauto|].
  destruct (beqb_spec (r_name x) f) as [E|E].
  - split; [discriminate|]. intros H. exfalso. apply H. left. exact E.
  - rewrite IH. tauto.
Qed.

Lemma lookup_rev f h : NoDup (map r_name h) -> lookup f (rev h) = lookup f h.
Proof.
  intros H. destruct (lookup f h) as [r|] eqn:E.
  - pose proof (lookup_name _ _ _ E) as En. apply lookup_In in E. subst f. apply NoDup_lookup_In.
    + rewrite map_rev. apply NoDup_rev. exact H.
    + rewrite <- in_rev. exact E.
  - apply lookup_None. apply lookup_None in E. rewrite map_rev, <- in_rev. exact E.
Qed.

Lemma bmem_In s l : bmem s l = true <-> In s l.
Proof.
  unfold bmem. rewrite existsb_exists. split.
  - intros (x & Hx & E). apply beqb_eq in E. subst. exact Hx.
  - intros H. exists s. split; [exact H|apply beqb_refl].
Qed.

Lemma lookup_select f names h :
  lookup f (select_rows names h) = if bmem f names then lookup f h else None.
Proof.
  unfold lookup, select_rows. induction h as [|x h IH]; cbn [filter find].
  - destruct (bmem f names); reflexivity.
  - destruct (bmem (r_name x) names) eqn:E; cbn [find].
    + destruct (beqb_spec (r_name x) f) as [E'|E']; [|exact IH]. subst f. rewrite E. reflexivity.
    + rewrite IH. destruct (bmem f names) eqn:Ef; [|reflexivity].
      destruct (beqb_spec (r_name x) f) as [E'|]; [congruence|reflexivity].
Qed.

Lemma select_NoDup names h : NoDup (map r_name h) -> NoDup (map r_name (select_rows names h)).
Proof.
  unfold select_rows. induction h as [|x h IH]; cbn [filter map]; intros H; [constructor|].
  inversion H as [|? ? Hx Hh]; subst. destruct (bmem (r_name x) names); cbn [map]; [|apply IH, Hh].
  constructor; [|apply IH, Hh]. intros Hi. apply Hx.
  apply in_map_iff in Hi as (y & E & Hy). apply filter_In in Hy as [Hy _].
  rewrite <- E. apply in_map. exact Hy.
Qed.

Lemma lookup_delete f names h :
  lookup f (delete_rows names h) = if bmem f names then None else lookup f h.
Proof.
  unfold lookup, delete_rows. induction h as [|x h IH]; cbn [filter find].
  - destruct (bmem f names); reflexivity.
  - destruct (bmem (r_name x) names) eqn:E; cbn [negb find].
    + rewrite IH. destruct (bmem f names) eqn:Ef; [reflexivity|].
      destruct (beqb_spec (r_name x) f) as [E'|]; [congruence|reflexivity].
    + destruct (beqb_spec (r_name x) f) as [E'|E']; [|exact IH]. subst f. rewrite E. reflexivity.
Qed.

(** A name that the database reads back as itself. *)
Definition plain_name (d : dialect) (f : bytes) : Prop :=
  ~ (exists a c b, f = a ++ squote :: squote :: c :: b)
  /\ (d = MySQL -> ~ In backslash f).

Lemma lex_bs_plain s : ~ In backslash s -> lex_quoted_bs squote s = lex_quoted squote s.
Proof.
  induction s as [s IH] using list_len_ind. intros H.
  destruct s as [|c s]; [reflexivity|]. cbn [lex_quoted_bs lex_quoted].
  destruct (ceqb_spec c backslash) as [->|_]; [exfalso; apply H; left; reflexivity|].
  assert (Hs : ~ In backslash s) by (intros Hi; apply H; right; exact Hi).
  destruct (ceqb c squote).
  - destruct s as [|c' s']; [reflexivity|]. destruct (ceqb c' squote); [|reflexivity].
    rewrite IH; [reflexivity|cbn; lia|]. intros Hi. apply Hs. right. exact Hi.
  - rewrite IH; [reflexivity|cbn; lia|exact Hs].
Qed.

Lemma In_escape q x s : x <> q -> In x (escape_quote q s) -> In x s.
Proof.
  intros Hx. induction s as [s IH] using list_len_ind.
  destruct (escape_cases q s) as [->|[(y & s' & -> & _ & -> & _)|[(c & s'' & -> & -> & _)|(s' & -> & _ & -> & _)]]].
  - auto.
  - intros [->|H]; [left; reflexivity|]. right. apply IH; [cbn; lia|exact H].
  - intros [->|[->|H]]; [congruence|congruence|]. right. right. apply IH; [cbn; lia|exact H].
  - intros [->|[->|H]]; [congruence|congruence|]. right. apply IH; [cbn; lia|exact H].
Qed.

Lemma lex_strlit_name d f rest :
  plain_name d f -> hd_error rest <> Some squote -> (d = MySQL -> ~ In backslash rest) ->
  lex_strlit d (escape_quote squote f ++ squote :: rest) = Some (f, rest).
Proof.
  intros [H1 H2] Hr Hb.
  assert (Hc : collapse squote f = f) by (apply collapse_id_iff; exact H1).
  pose proof (lex_escape squote f rest Hr) as Hl. rewrite Hc in Hl.
  unfold lex_strlit. destruct d; try exact Hl. rewrite <- Hl. apply lex_bs_plain.
  intros Hi. apply in_app_or in Hi as [Hi|[Hi|Hi]].
  - apply In_escape in Hi; [|discriminate]. exact (H2 eq_refl Hi).
  - discriminate.
  - exact (Hb eq_refl Hi).
Qed.

Lemma in_list_no_bs names : Forall (fun f => ~ In backslash f) names -> ~ In backslash (in_list names).
Proof.
  intros H. unfold in_list. induction H as [|f names Hf Hn IH]; [intros []|].
  assert (Hq : ~ In backslash (B"'" ++ escape_quote squote f ++ B"'")).
  { intros Hi. apply in_app_or in Hi as [Hi|Hi]; [cbn in Hi; intuition discriminate|].
    apply in_app_or in Hi as [Hi|Hi]; [|cbn in Hi; intuition discriminate].
    apply In_escape in Hi; [exact (Hf Hi)|discriminate]. }
  destruct names as [|g names]; [exact Hq|].
  change (~ In backslash ((B"'" ++ escape_quote squote f ++ B"'") ++ B", " ++
    join (B", ") (map (fun f => B"'" ++ escape_quote squote f ++ B"'") (g :: names)))).
  intros Hi. apply in_app_or in Hi as [Hi|Hi]; [exact (Hq Hi)|].
  apply in_app_or in Hi as [Hi|Hi]; [cbn in Hi; intuition discriminate|exact (IH Hi)].
Qed.

Lemma parse_in_list d names fuel :
  names <> [] -> Forall (plain_name d) names -> List.length (in_list names) < fuel ->
  parse_list d fuel (in_list names) = Some names.
Proof.
  intros Hne H. revert fuel. induction H as [|f names Hf Hn IH]; [congruence|]. intros fuel Hl.
  destruct fuel as [|fuel]; [lia|]. destruct names as [|g names].
  - change (in_list [f]) with (squote :: escape_quote squote f ++ squote :: []).
    cbn [parse_list]. change (ceqb squote squote) with true. cbv iota.
    rewrite lex_strlit_name; [reflexivity|exact Hf|discriminate|intros _ []].
  - assert (E : in_list (f :: g :: names)
                = squote :: escape_quote squote f ++ squote :: (B", " ++ in_list (g :: names))).
    { unfold in_list. cbn [map join]. rewrite <- !app_assoc. reflexivity. }
    rewrite E in *. cbn [parse_list]. change (ceqb squote squote) with true. cbv iota.
    rewrite lex_strlit_name; [|exact Hf|discriminate|].
    + change (B", " ++ in_list (g :: names)) with (","%char :: " "%char :: in_list (g :: names)).
      cbv iota. change (","%char :: " "%char :: in_list (g :: names)) with (B", " ++ in_list (g :: names)).
      rewrite strip_prefix_app. rewrite IH; [reflexivity|discriminate|].
      cbn [List.length] in Hl. rewrite app_length in Hl. cbn [List.length] in Hl.
      rewrite app_length in Hl. cbn [List.length B] in Hl. lia.
    + intros ->. intros Hi. apply in_app_or in Hi as [Hi|Hi]; [cbn in Hi; intuition discriminate|].
      revert Hi. apply in_list_no_bs. apply Forall_forall. intros x Hx.
      rewrite Forall_forall in Hn. destruct (Hn x Hx) as [_ H']. exact (H' eq_refl).
Qed.

Lemma query_names_plain d names :
  names <> [] -> Forall (plain_name d) names -> query_names d names = Some names.
Proof.
  intros Hne H. unfold query_names. destruct names as [|f names]; [congruence|].
  apply parse_in_list; [discriminate|exact H|lia].
Qed.

(** ** Selection *)
Lemma sort_and_filter_spec files :
  sort_and_filter files
  = filter (fun f => negb (skipped f) && negb (repeatable f)) files
    ++ filter (fun f => negb (skipped f) && repeatable f) files.
Proof.
  unfold sort_and_filter.
  assert (H : forall result rep, sort_and_filter_loop files result rep
    = (result ++ filter (fun f => negb (skipped f) && negb (repeatable f)) files)
      ++ (rep ++ filter (fun f => negb (skipped f) && repeatable f) files)).
  { induction files as [|f files IH]; intros result rep; cbn [sort_and_filter_loop filter].
    - rewrite !app_nil_r. reflexivity.
    - destruct (skipped f) eqn:Es; cbn [negb andb]; [apply IH|].
      destruct (repeatable f) eqn:Er; cbn [negb andb]; rewrite IH, <- !app_assoc; reflexivity. }
  rewrite H. reflexivity.
Qed.
