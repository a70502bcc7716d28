(** C90: a filter selects exactly the tables that it names. *)
From Verif Require Import GoStr GoStrFacts ModelSq SpecSql SqFacts SpecTokens ModelIntrospect ModelFilter SpecFilter FilterFacts.

Definition C90 : Prop := forall d f schema table, (d <> SQLite -> schema <> []) -> table <> [] ->
  selected d (filter_text d f) schema table = Some (table_meant d f schema table).

(** A backslash of MySQL: the name is read as another one ... *)
Definition back : choice := Choice false [] [] [B"a\b"; B"c"] [].
Theorem C90_refuted_other : selected MySQL (filter_text MySQL back) (B"s") (B"a\b") = Some false
  /\ table_meant MySQL back (B"s") (B"a\b") = true
  /\ exists t, selected MySQL (filter_text MySQL back) (B"s") t = Some true /\ table_meant MySQL back (B"s") t = false.
Proof.
  split; [vm_compute; reflexivity|]. split; [vm_compute; reflexivity|].
  exists (["a"; ascii_of_nat 8]%char). split; vm_compute; reflexivity.
Qed.
(** ... or the query is not understood, *)
Theorem C90_refuted_broken : selected MySQL (filter_text MySQL (Choice false [] [] [B"a\"] [])) (B"s") (B"t") = None.
Proof. vm_compute. reflexivity. Qed.
(** or what follows becomes part of the query: the last two names are no names any more, and the table
    is not looked up although it is in the list. *)
Definition inject : choice := Choice false [B"\"] [] [B" OR t IN ("; B"t"] [].
Theorem C90_refuted_inject : tokens MySQL (filter_text MySQL inject ++ B"'") =
  Some [Word (B"AND"); Word (B"table_schema"); Word (B"IN"); Sym "("; Str (B"')" ++ [LF] ++ B"    AND table_name IN (");
        Word (B"OR"); Word (B"t"); Word (B"IN"); Sym "("; Str (B", "); Word (B"t"); Str (B")")].
Proof. vm_compute. reflexivity. Qed.
(** Two quotes are read as one. *)
Definition quotes : choice := Choice false [] [] [B"a''b"] [].
Theorem C90_refuted_quotes : forall d, d <> Other ->
  selected d (filter_text d quotes) (B"s") (B"a''b") = Some false /\ selected d (filter_text d quotes) (B"s") (B"a'b") = Some true.
Proof. intros d H. destruct d; try congruence; split; vm_compute; reflexivity. Qed.
(** A list of empty names is not understood. *)
Theorem C90_refuted_empty : selected Postgres (filter_text Postgres (Choice false [] [] [[]] [])) (B"s") (B"t") = None.
Proof. vm_compute. reflexivity. Qed.
Theorem C90_refuted : ~ C90.
Proof.
  intros H. specialize (H MySQL back (B"s") (B"a\b") ltac:(discriminate) ltac:(discriminate)). vm_compute in H. discriminate H.
Qed.

(** All other filters select the tables that they mean. *)
Theorem C90_partial d f schema table : (d <> SQLite -> schema <> []) -> table <> [] ->
  Forall (writable d) (names_given d f) -> lists_named d f ->
  selected d (filter_text d f) schema table = Some (table_meant d f schema table).
Proof.
  intros Ns Nt W L. unfold names_given in W. apply Forall_app in W as [Ws Wt].
  assert (O : forall l ex, Forall (writable d) (counting l ex) -> (d = SQLite \/ some_name (counting l ex)) -> list_ok d l ex).
  { intros l ex F S. unfold list_ok. change (match l with [] => ex | _ => l end) with (counting l ex). split.
    - intros E. apply Forall_forall. intros n I. rewrite Forall_forall in F. exact (proj2 (F n I) E).
    - destruct S as [->|[->|(n & I & N)]]; [right; left; reflexivity|left; reflexivity|]. right. right. intros E. assert (In n (some_names (counting l ex))) as I' by (apply some_names_in; auto). rewrite E in I'. destruct I'. }
  rewrite selected_taken.
  - unfold table_meant. rewrite (taken_meant d _ _ table Nt Wt). destruct d; try reflexivity; rewrite (taken_meant _ _ _ schema (Ns ltac:(discriminate)) Ws); reflexivity.
  - intros N. apply O; [destruct d; try exact Ws; congruence|]. right. destruct d; try exact (proj1 L). congruence.
  - apply O; [exact Wt|]. destruct d; try (left; reflexivity); right; exact (proj2 L).
Qed.
(** Whatever the names are: without backslashes for MySQL, the text is read as conditions on the two
    columns, with one string for each name that is not empty. *)
Theorem C90_no_injection d f : (d = MySQL -> Forall (fun n => ~ In backslash n) (names_given d f)) -> lists_named d f ->
  exists l, conditions d (filter_text d f) = Some l
    /\ Forall (fun c => forall s t, value_of d s t (cd_column c) <> None) l
    /\ List.length (flat_map cd_names l) = List.length (some_names (names_given d f)).
Proof.
  intros W L.
  assert (O : forall l ex, (d = MySQL -> Forall (fun n => ~ In backslash n) (counting l ex)) -> (d = SQLite \/ some_name (counting l ex)) -> list_ok d l ex).
  { intros l ex F S. unfold list_ok. change (match l with [] => ex | _ => l end) with (counting l ex). split; [exact F|].
    destruct S as [->|[->|(n & I & N)]]; [right; left; reflexivity|left; reflexivity|]. right. right. intros E. assert (In n (some_names (counting l ex))) as I' by (apply some_names_in; auto). rewrite E in I'. destruct I'. }
  exists (filter_conditions d f). split; [apply conditions_read|split].
  - intros N. apply O; [|right; destruct d; try exact (proj1 L); congruence]. intros E. specialize (W E). unfold names_given in W. apply Forall_app in W as [Ws _]. subst d. exact Ws.
  - apply O; [|destruct d; try (left; reflexivity); right; exact (proj2 L)]. intros E. specialize (W E). unfold names_given in W. apply Forall_app in W as [_ Wt]. exact Wt.
  - assert (G : forall p l ex, (forall s t, value_of d s t p <> None) -> Forall (fun c => forall s t, value_of d s t (cd_column c) <> None) (line_conditions p l ex)).
    { intros p l ex V. unfold line_conditions. destruct l; [destruct ex|]; constructor; try constructor; exact V. }
    unfold filter_conditions. apply Forall_app. split; [destruct d; try constructor; apply G; discriminate|]. apply G. destruct d; discriminate.
  - unfold filter_conditions, names_given, some_names. rewrite flat_map_app, filter_app, !app_length.
    assert (G : forall p l ex, List.length (flat_map cd_names (line_conditions p l ex)) = List.length (filter (fun n => negb (beqb n [])) (counting l ex))).
    { intros p l ex. unfold line_conditions, counting, read_names, some_names. destruct l; [destruct ex|]; cbn [flat_map cd_names]; rewrite ?app_nil_r, ?map_length; reflexivity. }
    rewrite (G (table_path d)). destruct d; try rewrite G; reflexivity.
Qed.
Definition C90_case : choice := Choice false [B"public"; []] [] [] [B"it's"; B"x"; B"a, b"].
Example C90_example : Forall (writable Postgres) (names_given Postgres C90_case) /\ lists_named Postgres C90_case
  /\ mklist (f_extables C90_case) = B"'it''s', 'x', 'a, b'"
  /\ map (selected Postgres (filter_text Postgres C90_case) (B"public")) [B"it's"; B"a"; B"a, b"; B"its"] = [Some false; Some true; Some false; Some true].
Proof.
  split; [|split; [|split; vm_compute; reflexivity]].
  - unfold names_given, counting. cbn [f_schemas f_exschemas f_tables f_extables C90_case app].
    assert (G : forall n, collapse squote n = n -> writable Postgres n) by (intros n E; split; [apply collapse_id_iff; exact E|discriminate]).
    repeat constructor; try (apply G; vm_compute; reflexivity); discriminate.
  - split; right; cbn [f_schemas f_exschemas f_tables f_extables C90_case counting].
    + exists (B"public"). split; [left; reflexivity|discriminate].
    + exists (B"x"). split; [right; left; reflexivity|discriminate].
Qed.
Print Assumptions C90_refuted.
Print Assumptions C90_refuted_other.
Print Assumptions C90_refuted_broken.
Print Assumptions C90_refuted_inject.
Print Assumptions C90_refuted_quotes.
Print Assumptions C90_refuted_empty.
Print Assumptions C90_partial.
Print Assumptions C90_no_injection.
