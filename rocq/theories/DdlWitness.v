(** Witnesses and final forms for PropDdl.v. *)
From Verif Require Import GoStr GoStrFacts ModelDdl SpecArgs DdlFacts TrimFacts NormFacts.

Lemma generate_name_suffix k table cols :
  exists p, generate_name k table cols = p ++ kind_suffix k.
Proof. rewrite generate_name_spec. eexists. reflexivity. Qed.

Lemma generate_name_prefix k table cols :
  exists p r, generate_name k table cols = p ++ kind_suffix k /\ joined table cols = p ++ r
    /\ (r <> [] -> List.length (generate_name k table cols) = 63).
Proof.
  rewrite generate_name_spec. set (n := 63 - List.length (kind_suffix k)).
  exists (firstn n (joined table cols)), (skipn n (joined table cols)).
  split; [reflexivity|]. split; [symmetry; apply firstn_skipn|].
  intros H. rewrite app_length, firstn_length.
  assert (n < List.length (joined table cols)).
  { destruct (Nat.lt_ge_cases n (List.length (joined table cols))) as [|Hge]; [assumption|].
    exfalso. apply H. apply skipn_all2. exact Hge. }
  assert (List.length (kind_suffix k) <= 63) by (destruct k; cbn; lia). lia.
Qed.

Lemma collision_separator :
  generate_name UniqueKey (B"a") (map B ["b_c"]%string) = generate_name UniqueKey (B"a") (map B ["b"; "c"]%string)
  /\ map B ["b_c"]%string <> map B ["b"; "c"]%string.
Proof. split; [vm_compute; reflexivity|discriminate]. Qed.

Lemma collision_long :
  let long := List.repeat "a"%char 70 in
  generate_name IndexKind long [B"x"] = generate_name IndexKind long [B"y"].
Proof. vm_compute. reflexivity. Qed.

(** The argument [f(')', g(','), x)] is one argument. *)
Definition tricky : bytes := B"f(')', g(','), x)".

Ltac plain_tac := repeat split; discriminate.

Lemma tricky_full : full_argument tricky.
Proof.
  unfold tricky.
  apply (f_char "f"%char); [plain_tac|discriminate|].
  apply (f_paren (B"')', g(','), x") []); [|constructor].
  apply (n_string (B")") (B", g(','), x")); [repeat constructor; discriminate|].
  apply (n_char ","%char); [plain_tac|]. apply (n_char " "%char); [plain_tac|].
  apply (n_char "g"%char); [plain_tac|].
  apply (n_paren (B"','") (B", x")).
  - apply (n_string (B",") []); [repeat constructor; discriminate|constructor].
  - apply (n_char ","%char); [plain_tac|]. apply (n_char " "%char); [plain_tac|].
    apply (n_char "x"%char); [plain_tac|constructor].
Qed.

Lemma tricky_split : split_args tricky = map B ["f(')', g('"; "'), x)"]%string.
Proof. vm_compute. reflexivity. Qed.

Lemma split_args_cuts_literal : exists s, full_argument s /\ 1 < List.length (split_args s).
Proof. exists tricky. split; [exact tricky_full|]. rewrite tricky_split. cbn. lia. Qed.

(** Two arguments that are not separated. *)
Lemma split_args_joins_arguments :
  exists a b, full_argument a /\ full_argument b /\ split_args (a ++ B"," ++ b) = [a ++ B"," ++ b].
Proof.
  exists (B"f(')')"), (B"b"). split; [|split; [|vm_compute; reflexivity]].
  - apply (f_char "f"%char); [plain_tac|discriminate|].
    apply (f_paren (B"')'") []); [|constructor].
    apply (n_string (B")") []); [repeat constructor; discriminate|constructor].
  - apply (f_char "b"%char); [plain_tac|discriminate|constructor].
Qed.

Lemma type_panics : forall d, normalize_column_type d (B"INT)") = Panic.
Proof. intros d. apply normalize_type_panic. cbn. intuition discriminate. Qed.

Lemma type_unstable_mysql :
  exists s t t', normalize_column_type MySQL s = Ok (t, [], []) /\
    normalize_column_type MySQL t = Ok (t', [], []) /\ t <> t'.
Proof. exists (B"X SIGNED SIGNED"), (B"X SIGNED"), (B"X"). repeat split; try (vm_compute; reflexivity). discriminate. Qed.

Lemma type_unstable_panic : forall d,
  exists s t a1, normalize_column_type d s = Ok (t, a1, []) /\ normalize_column_type d t = Panic.
Proof. intros d. exists (B")A(B)"), (B")A"), (B"B"). destruct d; split; vm_compute; reflexivity. Qed.

Lemma default_unstable_postgres :
  exists s, normalize_column_default Postgres (normalize_column_default Postgres s)
            <> normalize_column_default Postgres s.
Proof. exists (B"1::int"). vm_compute. discriminate. Qed.

(** Different types that compare equal. *)
Lemma type_loses_array :
  normalize_column_type Postgres (B"VARCHAR(255)[]") = normalize_column_type Postgres (B"VARCHAR(255)")
  /\ normalize_column_type MySQL (B"DECIMAL(10,2) UNSIGNED") = normalize_column_type MySQL (B"DECIMAL(10,2)").
Proof. split; vm_compute; reflexivity. Qed.

Lemma unwrap_unbalances : exists s, full_argument s /\ ~ full_argument (unwrap_brackets s).
Proof.
  exists (B"(a)+(b)"). split.
  - apply (f_paren (B"a") (B"+(b)")); [apply n_char; [plain_tac|constructor]|].
    apply f_char; [plain_tac|discriminate|].
    apply (f_paren (B"b") []); [apply n_char; [plain_tac|constructor]|constructor].
  - change (unwrap_brackets (B"(a)+(b)")) with (B"a)+(b"). intros H.
    inversion H as [|c s Hc _ Hs| | |]; subst. inversion Hs as [|c s Hc' _ _| | |]; subst.
    destruct Hc' as (_ & _ & H' & _). apply H'. reflexivity.
Qed.
