(** What is read from a row is what the row says. *)
From Verif Require Import GoStr GoStrFacts ModelCatalog ModelDdl DdlFacts TrimFacts SpecArgs ModelIntrospect SpecLive.

(** ** Names *)
Lemma join_nil l : Forall named l -> join (B",") l = [] -> l = [].
Proof.
  intros F E. destruct l as [|a l]; [reflexivity|]. exfalso. inversion F as [|? ? N _]; subst. apply N.
  destruct l as [|b l]; [exact E|]. rewrite join_cons in E by discriminate. destruct a; [reflexivity|discriminate].
Qed.
Lemma split_names l : Forall named l -> Forall no_comma l -> split_some (join (B",") l) = l.
Proof.
  intros N C. destruct l as [|a l]; [reflexivity|]. unfold split_some.
  destruct (join (B",") (a :: l)) eqn:E; [apply join_nil in E; [discriminate|exact N]|]. rewrite <- E.
  change (B",") with [","%char]. apply split_byte_join; [discriminate|exact C].
Qed.
Lemma names_read_id d l : Forall named l -> (d <> Postgres -> Forall no_comma l) -> names_read d l = l.
Proof.
  intros N C. destruct d; [| reflexivity | | |]; apply (split_names l N); apply C; discriminate.
Qed.

(** ** Constraints *)
Lemma unwrap_one e : unwrap_brackets (B"(" ++ e ++ B")") = e.
Proof.
  unfold unwrap_brackets. assert (wrapped_in_brackets (B"(" ++ e ++ B")") = true) as -> by (apply wrapped_spec; exists e; reflexivity).
  change (tl (B"(" ++ e ++ B")")) with (e ++ [")"%char]). apply removelast_last.
Qed.
Lemma check_read_id d c : d <> SQLite \/ con_check c = [] -> d <> Other -> (d = Postgres -> con_check c <> [] -> con_notvalid c = false) ->
  check_read d (check_text d c) = con_check c.
Proof.
  intros H O NV. unfold check_text. destruct (con_check c) as [|a e] eqn:E; [destruct d; reflexivity|].
  destruct H as [H|H]; [|discriminate]. rewrite <- E. destruct d; try congruence; unfold check_read; try apply unwrap_one.
  rewrite (NV eq_refl) by discriminate. rewrite app_nil_r.
  change (B"CHECK (" ++ con_check c ++ B")") with (B"CHECK " ++ (B"(" ++ con_check c ++ B")")).
  rewrite trim_prefix_app. apply unwrap_one.
Qed.
Lemma rule_read_id d r : In r rules -> rule_read d (rule_text d r) = want_rule r.
Proof. intro H. repeat (destruct H as [<-|H]; [destruct d; reflexivity|]). destruct H. Qed.
Lemma constraint_read_id d db c : Forall named (con_columns c) -> Forall named (con_refcolumns c) -> In (con_update c) rules -> In (con_delete c) rules ->
  (d <> SQLite \/ con_check c = []) -> d <> Other -> (d = Postgres -> con_check c <> [] -> con_notvalid c = false) ->
  (d <> Postgres -> Forall no_comma (con_columns c) /\ Forall no_comma (con_refcolumns c)) ->
  (con_type c = FOREIGN_KEY -> con_refcolumns c <> []) ->
  constraint_read d c (con_columns c) (con_refcolumns c) = want_constraint db c.
Proof.
  intros N1 N2 U D H O NV C R. unfold constraint_read, want_constraint.
  rewrite !names_read_id, !rule_read_id, check_read_id; auto; try (intro Z; apply (C Z)). f_equal.
  destruct (beqb (con_type c) FOREIGN_KEY) eqn:E; [|reflexivity]. apply beqb_eq in E. specialize (R E).
  destruct (con_refcolumns c); [congruence|reflexivity].
Qed.

(** ** Indexes *)
Lemma lower_range c : is_lower c = (("a"%char <=? c)%char && (c <=? "z"%char)%char)%bool.
Proof. destruct c as [b0 b1 b2 b3 b4 b5 b6 b7]. destruct b0, b1, b2, b3, b4, b5, b6, b7; reflexivity. Qed.
Lemma needs_none n : needs_no_quotes n = true -> pg_plain n = true.
Proof.
  destruct n as [|c n]; [discriminate|]. cbn [needs_no_quotes pg_plain forallb]. intros H. apply andb_true_iff in H as [Hc Hn].
  assert (D : is_digit c = false). { revert Hc. clear. destruct c as [b0 b1 b2 b3 b4 b5 b6 b7]. destruct b0, b1, b2, b3, b4, b5, b6, b7; vm_compute; congruence. }
  rewrite D, <- lower_range. change "_"%char with underscore. rewrite orb_false_l, (orb_comm (ceqb c underscore)), Hc. cbn [negb andb].
  apply forallb_forall. intros x I. rewrite forallb_forall in Hn. specialize (Hn x I). rewrite <- lower_range. change "_"%char with underscore. destruct (is_lower x), (is_digit x), (ceqb x underscore); try reflexivity; exact Hn.
Qed.
Lemma pg_names cols l : Forall (fun n => In n cols -> needs_no_quotes n = true) l -> map (pg_name cols) l = l.
Proof.
  intro F. rewrite <- (map_id l) at 2. apply map_ext_in. intros n Hn. rewrite Forall_forall in F. specialize (F n Hn).
  unfold pg_name. destruct (bmem n cols) eqn:E; [|reflexivity]. apply bmem_In in E. rewrite (needs_none _ (F E)). reflexivity.
Qed.
Lemma bools_read l : map parse_bool (split_some (join (B",") (map bool_text l))) = l.
Proof.
  rewrite split_names.
  - rewrite map_map. rewrite <- (map_id l) at 2. apply map_ext. intros []; reflexivity.
  - apply Forall_forall. intros x Hx. apply in_map_iff in Hx as (b & <- & _). destruct b; discriminate.
  - apply Forall_forall. intros x Hx. apply in_map_iff in Hx as (b & <- & _). destruct b; intros [Z|[]]; discriminate.
Qed.
(** MySQL: quotes with and without backslashes. *)
Notation bs := "\"%char.
Lemma unescape_app w rest : ~ In bs w ->
  replace2 bs squote (B"'") (mysql_name w ++ rest) = w ++ replace2 bs squote (B"'") rest.
Proof.
  intro N.
  assert (E : replace2 bs squote (B"'") (replace_byte squote (B"\'") w ++ rest) = w ++ replace2 bs squote (B"'") rest).
  { revert N. induction w as [|c w IH]; intro N; [reflexivity|]. unfold replace_byte. cbn [flat_map].
    fold (replace_byte squote (B"\'") w). destruct (ceqb_spec c squote) as [E|E].
    - subst c. change (B"\'" ++ replace_byte squote (B"\'") w) with (bs :: squote :: replace_byte squote (B"\'") w).
      cbn [app replace2]. rewrite !ceqb_refl. cbn [andb].
      rewrite IH by (intro Z; apply N; right; exact Z). reflexivity.
    - cbn [app]. assert (Z : forall r, replace2 bs squote (B"'") (c :: r) = c :: replace2 bs squote (B"'") r).
      { intro r. cbn [replace2]. destruct r; [reflexivity|].
        destruct (ceqb_spec c bs) as [X|X]; [exfalso; apply N; left; exact X|]. reflexivity. }
      rewrite Z. rewrite IH by (intro Q; apply N; right; exact Q). reflexivity. }
  assert (E2 : replace2 bs squote (B"'") (w ++ rest) = w ++ replace2 bs squote (B"'") rest).
  { clear E. revert N. induction w as [|c w IH]; intro N; [reflexivity|]. cbn [app].
    assert (Z : forall r, replace2 bs squote (B"'") (c :: r) = c :: replace2 bs squote (B"'") r).
    { intro r. cbn [replace2]. destruct r; [reflexivity|].
      destruct (ceqb_spec c bs) as [X|X]; [exfalso; apply N; left; exact X|]. reflexivity. }
    rewrite Z, IH by (intro Q; apply N; right; exact Q). reflexivity. }
  unfold mysql_name. destruct (has_prefix w _); [exact E|exact E2].
Qed.
Lemma unescape_join l : Forall (fun n => ~ In bs n) l -> replace2 bs squote (B"'") (join (B",") (map mysql_name l)) = join (B",") l.
Proof.
  induction l as [|a l IH]; intro F; [reflexivity|]. inversion F as [|? ? N F']; subst. destruct l as [|b l].
  - cbn [map join]. pose proof (unescape_app a [] N) as E. rewrite !app_nil_r in E. exact E.
  - rewrite (join_cons _ a) by discriminate. rewrite <- (IH F').
    change (map mysql_name (a :: b :: l)) with (mysql_name a :: map mysql_name (b :: l)).
    rewrite join_cons by discriminate. rewrite unescape_app by exact N. f_equal.
    destruct (join (B",") (map mysql_name (b :: l))); reflexivity.
Qed.
Lemma trimmed_join l : Forall named l -> Forall (fun n => trim_space n = n) l -> trim_space (join (B",") l) = join (B",") l.
Proof.
  intros N F. apply trim_space_id. split.
  - destruct F as [|a l Ea F]; [exact I|]. inversion N as [|? ? Na _]; subst.
    pose proof (trim_space_trimmed a) as (C & _). rewrite Ea in C.
    destruct l as [|b l]; [exact C|]. rewrite join_cons by discriminate. destruct a; [congruence|]. exact C.
  - induction l as [|a l IH]; [exact I|]. inversion N as [|? ? Na N']; subst. inversion F as [|? ? Ea F']; subst.
    destruct l as [|b l].
    + pose proof (trim_space_trimmed a) as (_ & C). rewrite Ea in C. exact C.
    + rewrite join_cons by discriminate. rewrite app_assoc, rev_app_distr.
      specialize (IH N' F'). destruct (rev (join (B",") (b :: l))) as [|c r] eqn:E; [|exact IH].
      exfalso. apply (f_equal (@rev ascii)) in E. rewrite rev_involutive in E. apply join_nil in E; [discriminate|exact N'].
Qed.
(** SQL Server: keys and included columns. *)
Lemma share_keys cols : forall i n bits, n = i + List.length cols -> (forall j, j < List.length cols -> nth_error bits (i + j) = Some false) ->
  share_out i n bits cols = Ok (cols, []).
Proof.
  induction cols as [|c cols IH]; intros i n bits L H; [reflexivity|]. cbn [share_out List.length] in *.
  replace (i <=? n) with true by (symmetry; apply Nat.leb_le; lia).
  pose proof (H 0 ltac:(lia)) as H0. rewrite Nat.add_0_r in H0. rewrite H0. cbn [bindr].
  rewrite (IH (S i) n bits) by (try lia; intros j Hj; replace (S i + j) with (i + S j) by lia; apply H; lia). reflexivity.
Qed.
Lemma share_all inc cols : forall i n bits, n = i + List.length (inc ++ cols) ->
  (forall j, j < List.length inc -> nth_error bits (i + j) = Some true) ->
  (forall j, j < List.length cols -> nth_error bits (i + List.length inc + j) = Some false) ->
  share_out i n bits (inc ++ cols) = Ok (cols, inc).
Proof.
  induction inc as [|c inc IH]; intros i n bits L H1 H2.
  - cbn [app List.length] in *. apply share_keys; auto. intros j Hj. rewrite <- (H2 j Hj). f_equal. lia.
  - cbn [app share_out List.length] in *. replace (i <=? n) with true by (symmetry; apply Nat.leb_le; lia).
    pose proof (H1 0 ltac:(lia)) as H0. rewrite Nat.add_0_r in H0. rewrite H0. cbn [bindr].
    rewrite (IH (S i) n bits).
    + reflexivity.
    + lia.
    + intros j Hj. replace (S i + j) with (i + S j) by lia. apply H1. lia.
    + intros j Hj. replace (S i + List.length inc + j) with (i + S (List.length inc) + j) by lia. apply H2. exact Hj.
Qed.
Lemma nth_const {A C} (l : list A) (b : C) j : j < List.length l -> nth_error (map (fun _ => b) l) j = Some b.
Proof. revert j. induction l as [|a l IH]; intros [|j] H; cbn in *; try lia; [reflexivity|]. apply IH. lia. Qed.
Lemma sqlserver_read x : ix_columns x <> [] -> Forall named (ix_columns x) -> Forall named (ix_include x) ->
  Forall no_comma (ix_columns x) -> Forall no_comma (ix_include x) -> List.length (ix_descending x) = List.length (ix_columns x) ->
  sqlserver_index x = Ok x.
Proof.
  intros NE N1 N2 C1 C2 L. unfold sqlserver_index.
  rewrite (split_names (ix_include x ++ ix_columns x)) by (apply Forall_app; auto).
  assert (E1 : map (fun _ : bytes => B"1") (ix_include x) ++ map (fun _ => B"0") (ix_columns x)
    = map bool_text (map (fun _ => true) (ix_include x) ++ map (fun _ => false) (ix_columns x))).
  { rewrite map_app, !map_map. reflexivity. }
  rewrite E1, bools_read.
  assert (E2 : map (fun _ : bytes => B"0") (ix_include x) ++ map bool_text (ix_descending x)
    = map bool_text (map (fun _ => false) (ix_include x) ++ ix_descending x)).
  { rewrite map_app, !map_map. reflexivity. }
  rewrite E2, bools_read.
  rewrite (share_all (ix_include x) (ix_columns x)).
  - cbn [bindr]. replace (List.length (ix_include x) <=? _) with true by (symmetry; apply Nat.leb_le; rewrite app_length, map_length; lia).
    cbn [orb]. rewrite skipn_app, map_length, Nat.sub_diag. cbn [skipn].
    rewrite <- (map_length (fun _ : bytes => false) (ix_include x)) at 1. rewrite skipn_all. cbn [app]. destruct x; reflexivity.
  - rewrite !app_length, !map_length. lia.
  - intros j Hj. cbn [Nat.add]. rewrite nth_error_app1 by (rewrite map_length; exact Hj). apply nth_const. exact Hj.
  - intros j Hj. cbn [Nat.add]. rewrite nth_error_app2 by (rewrite map_length; lia). rewrite map_length.
    replace (List.length (ix_include x) + j - List.length (ix_include x)) with j by lia. apply nth_const. exact Hj.
Qed.
Lemma index_read_id d db t x : d <> Other -> index_ok d t x -> clear_index d db t x -> index_read d (map col_name (tb_columns t)) x = Ok x.
Proof.
  intros O (_ & _ & _ & NE & N1 & N2 & L) (C & _). unfold index_read. destruct d; try congruence.
  - destruct C as (C1 & C2). rewrite split_names by assumption. destruct x; reflexivity.
  - apply Forall_app in C as (C1 & C2). rewrite !pg_names by assumption. destruct x; reflexivity.
  - assert (C1 : Forall argument (ix_columns x)) by (eapply Forall_impl; [|exact C]; intros a Z; apply Z).
    assert (C2 : Forall (fun n => ~ In bs n) (ix_columns x)) by (eapply Forall_impl; [|exact C]; intros a Z; apply Z).
    assert (C3 : Forall (fun n => trim_space n = n) (ix_columns x)) by (eapply Forall_impl; [|exact C]; intros a Z; apply Z).
    rewrite bools_read, unescape_join by exact C2. rewrite trimmed_join by assumption.
    rewrite split_args_exact; [destruct x; reflexivity|exact NE| |].
    + exact C1.
    + intro E. apply join_nil in E; auto.
  - destruct C as (C1 & C2). apply sqlserver_read; auto.
Qed.

(** ** The rows of a table *)
Lemma other_named_none l c : (forall o, In o l -> con_name o = con_name c -> con_type o = con_type c) -> other_named l c = [].
Proof.
  intro H. unfold other_named. destruct (filter _ l) as [|o r] eqn:E; [reflexivity|]. exfalso.
  assert (Z : In o (o :: r)) by (left; reflexivity). rewrite <- E in Z. apply filter_In in Z as (Z1 & Z2).
  rewrite !andb_true_iff, !negb_true_iff in Z2. destruct Z2 as ((Z2 & Z3) & _). apply beqb_eq in Z2.
  rewrite (H o Z1 Z2), beqb_refl in Z3. discriminate.
Qed.
Lemma one_check all c : NoDup (map con_name (filter (fun k => beqb (con_type k) CHECK) all)) -> In c all -> con_type c = CHECK ->
  filter (fun k => beqb (con_type k) CHECK && beqb (con_name k) (con_name c)) all = [c].
Proof.
  intros D I T. induction all as [|a all IH]; [destruct I|]. cbn [filter] in D |- *.
  destruct (beqb (con_type a) CHECK) eqn:E; cbn [andb].
  - cbn [map] in D. inversion D as [|? ? D1 D2]; subst. destruct I as [->|I].
    + rewrite beqb_refl. f_equal. destruct (filter (fun k => beqb (con_type k) CHECK && beqb (con_name k) (con_name c)) all) as [|o r] eqn:F; [reflexivity|].
      exfalso. assert (Z : In o (o :: r)) by (left; reflexivity). rewrite <- F in Z. apply filter_In in Z as (Z1 & Z2).
      apply andb_true_iff in Z2 as (Z2 & Z3). apply beqb_eq in Z3. apply D1. rewrite <- Z3. apply in_map, filter_In. auto.
    + rewrite (IH D2 I). destruct (beqb (con_name a) (con_name c)) eqn:Q; [|reflexivity]. apply beqb_eq in Q. exfalso. apply D1.
      rewrite Q. apply in_map, filter_In. split; [exact I|]. rewrite T. apply beqb_refl.
  - destruct I as [->|I]; [rewrite T, beqb_refl in E; discriminate|]. apply IH; auto.
Qed.
Lemma no_checks all c : con_type c <> CHECK -> (forall o, In o all -> con_name o = con_name c -> con_type o = con_type c) ->
  filter (fun k => beqb (con_type k) CHECK && beqb (con_name k) (con_name c)) all = [].
Proof.
  intros T H. destruct (filter _ all) as [|o r] eqn:E; [reflexivity|]. exfalso.
  assert (Z : In o (o :: r)) by (left; reflexivity). rewrite <- E in Z. apply filter_In in Z as (Z1 & Z2).
  apply andb_true_iff in Z2 as (Z2 & Z3). apply beqb_eq in Z2, Z3. apply T. rewrite <- (H o Z1 Z3). exact Z2.
Qed.
Lemma key_rows_id d db s t : d <> Other -> In t (map lv_table (snd s)) -> table_ok d (fst s) t -> schema_ok d s -> clear_schema d db s ->
  Forall (clear_constraint d) (tb_constraints t) -> key_rows d s t = map (want_constraint db) (tb_constraints t).
Proof.
  intros O T (_ & _ & _ & _ & _ & _ & K & _) (_ & _ & _ & SC) (_ & ST) C. unfold key_rows.
  rewrite Forall_forall in K, C.
  assert (SUB : incl (tb_constraints t) (schema_constraints s)).
  { intros c Hc. apply in_map_iff in T as (x & <- & Hx). unfold schema_constraints. apply in_flat_map. eauto. }
  assert (ONE : forall c, In c (tb_constraints t) -> constraint_rows d (schema_constraints s) (tb_constraints t) c = [want_constraint db c]).
  { intros c Hc. destruct (K c Hc) as (K1 & K2 & K3 & K4 & K5 & K6 & K7 & K8 & K9 & (K10 & K11) & (K12 & K13) & K14).
    destruct (C c Hc) as (C1 & C2 & C3).
    assert (X : constraint_read d c (con_columns c) (con_refcolumns c) = want_constraint db c).
    { apply constraint_read_id; auto.
      - destruct (beqb (con_type c) CHECK) eqn:E; [left; apply K5; apply beqb_eq; exact E|].
        right. apply K6. intro Z. rewrite Z in E. vm_compute in E. discriminate.
      - intros E1 E2. apply C3; auto. destruct (beqb (con_type c) CHECK) eqn:E; [apply beqb_eq; exact E|]. exfalso. apply E2.
        apply K6. intro Z. rewrite Z in E. vm_compute in E. discriminate. }
    unfold constraint_rows. destruct d; try congruence; try (rewrite X; reflexivity).
    specialize (ST eq_refl).
    destruct (beqb (con_type c) CHECK) eqn:E.
    - apply beqb_eq in E. rewrite one_check by auto. cbn [app map]. f_equal. rewrite <- X.
      destruct (K5 E) as (E1 & E2 & _). destruct K14 as (M1 & M2 & M3 & M4 & M5 & M6 & M7 & M8). destruct (M8 E) as (R1 & R2 & R3 & R4 & R5).
      assert (E3 : con_refcolumns c = []) by (apply K9; rewrite E; discriminate).
      unfold check_row, constraint_read. cbn [con_schema con_table con_name con_type con_refschema con_reftable con_update con_delete con_match
        con_operators con_indextype con_predicate con_deferrable con_deferred con_clustered con_notvalid con_ignore].
      rewrite E1, E3, E, R1, R2, R3, R4, R5, M1, M2, M3, M4, M5, M6, M7, K3. reflexivity.
    - assert (NC : con_type c <> CHECK) by (intro Z; rewrite Z in E; vm_compute in E; discriminate).
      rewrite no_checks by (auto; intros o Ho; apply ST; auto). cbn [map]. rewrite app_nil_r.
      unfold key_row. rewrite other_named_none by (intros o Ho; apply ST; auto).
      cbn [map flat_map]. destruct (beqb (con_type c) FOREIGN_KEY) eqn:Q; [rewrite X; reflexivity|].
      rewrite app_nil_r. rewrite <- X. rewrite K9; [reflexivity|]. intro Z. rewrite Z in Q. vm_compute in Q. discriminate. }
  rewrite flat_map_concat_map. rewrite (map_ext_in _ (fun c => [want_constraint db c]) _ ONE).
  clear. induction (tb_constraints t) as [|a r IH]; [reflexivity|]. cbn. rewrite IH. reflexivity.
Qed.
