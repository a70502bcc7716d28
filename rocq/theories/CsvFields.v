(** Proofs about the CSV files: a value that was dumped is loaded. *)
From Verif Require Import GoStr GoStrFacts ModelSq ModelDdl ModelCsv SpecCsv SpecSql SprintFacts CsvFacts.
From Coq Require Import ZifyBool ZifyNat ZifyN.

(** ** Hexadecimal *)
Lemma unhexdigit_hexdigit n : n < 16 -> unhexdigit (hexdigit n) = Some n.
Proof. intros H. do 16 (destruct n as [|n]; [reflexivity|]). lia. Qed.
Lemma unhex_encode s : unhex (hex_encode s) = Some s.
Proof.
  induction s as [|c s IH]; [reflexivity|]. unfold hex_encode in *. cbn [flat_map app unhex].
  pose proof (cn_bound c) as Hc.
  assert (H1 : cn c / 16 < 16) by (apply Nat.div_lt_upper_bound; lia).
  assert (H2 : cn c mod 16 < 16) by (apply Nat.mod_upper_bound; lia).
  rewrite !unhexdigit_hexdigit, IH by assumption. rewrite <- Nat.div_mod by discriminate. unfold cn. rewrite ascii_nat_embedding. reflexivity.
Qed.
Lemma hexdigit_cases n : n < 16 -> In (hexdigit n) (B"0123456789abcdef").
Proof. intros H. do 16 (destruct n as [|n]; [cbn; auto 20|]). lia. Qed.
Lemma hex_encode_chars s : Forall (fun c => In c (B"0123456789abcdef")) (hex_encode s).
Proof.
  induction s as [|c s IH]; [constructor|]. unfold hex_encode in *. cbn [flat_map app]. pose proof (cn_bound c) as Hc.
  constructor; [apply hexdigit_cases, Nat.div_lt_upper_bound; lia|]. constructor; [apply hexdigit_cases, Nat.mod_upper_bound; lia|exact IH].
Qed.
Lemma hex_encode_app a b : hex_encode (a ++ b) = hex_encode a ++ hex_encode b.
Proof. unfold hex_encode. apply flat_map_app. Qed.
Lemma remove_id c s : ~ In c s -> replace_byte c [] s = s.
Proof.
  unfold replace_byte. induction s as [|x s IH]; cbn [flat_map In]; intros H; [reflexivity|]. destruct (ceqb_spec x c) as [->|N]; [exfalso; auto|].
  cbn [app]. f_equal. auto.
Qed.
Lemma remove_app c a b : replace_byte c [] (a ++ b) = replace_byte c [] a ++ replace_byte c [] b.
Proof. unfold replace_byte. apply flat_map_app. Qed.
Lemma hex_no_dash s : replace_byte "-"%char [] (hex_encode s) = hex_encode s.
Proof.
  apply remove_id. intros I. pose proof (hex_encode_chars s) as F. rewrite Forall_forall in F. apply F in I. cbn in I. intuition discriminate.
Qed.
Lemma uuid_dashes b : List.length b = 16 -> replace_byte "-"%char [] (uuid_text b) = hex_encode b.
Proof.
  intros H. unfold uuid_text. rewrite !remove_app, !hex_no_dash. change (replace_byte "-"%char [] (B"-")) with (@nil ascii). cbn [app].
  rewrite <- !hex_encode_app. f_equal. do 16 (destruct b as [|? b]; [discriminate|]). destruct b; [reflexivity|discriminate].
Qed.

Lemma hex_char_digit x : In x (B"0123456789abcdef") -> exists n, n < 16 /\ x = hexdigit n.
Proof.
  intros H. cbn in H. repeat destruct H as [H|H]; [..|destruct H]; rewrite <- H;
    [exists 0|exists 1|exists 2|exists 3|exists 4|exists 5|exists 6|exists 7|exists 8|exists 9|exists 10|exists 11|exists 12|exists 13|exists 14|exists 15];
    (split; [lia|reflexivity]).
Qed.
Lemma hex_pair a b : a < 16 -> b < 16 -> hex_encode [ascii_of_nat (16 * a + b)] = [hexdigit a; hexdigit b].
Proof.
  intros Ha Hb. unfold hex_encode. cbn [flat_map app]. unfold cn. rewrite nat_ascii_embedding by lia.
  rewrite (Nat.mul_comm 16 a), Nat.div_add_l, Nat.div_small, Nat.add_0_r by lia. rewrite Nat.add_comm, Nat.mod_add, Nat.mod_small by lia. reflexivity.
Qed.
Lemma hex_part_bytes n s : hex_part (2 * n) s -> exists b, List.length b = n /\ s = hex_encode b.
Proof.
  revert s. induction n as [|n IH]; intros s [L F].
  - destruct s; [|discriminate L]. exists []. split; reflexivity.
  - destruct s as [|x [|y s]]; [cbn in L; lia|cbn in L; lia|]. inversion F as [|? ? Hx F']; subst. inversion F' as [|? ? Hy F'']; subst.
    destruct (IH s) as (b & L1 & ->); [split; [cbn [Datatypes.length] in L; lia|exact F'']|].
    destruct (hex_char_digit x Hx) as (i & Hi & ->). destruct (hex_char_digit y Hy) as (j & Hj & ->).
    exists (ascii_of_nat (16 * i + j) :: b). split; [cbn [Datatypes.length]; f_equal; exact L1|].
    change (ascii_of_nat (16 * i + j) :: b) with ([ascii_of_nat (16 * i + j)] ++ b). rewrite hex_encode_app, hex_pair by assumption. reflexivity.
Qed.
Lemma canonical_bytes s : canonical_uuid s -> exists b, List.length b = 16 /\ s = uuid_text b.
Proof.
  intros (a1 & a2 & a3 & a4 & a5 & H1 & H2 & H3 & H4 & H5 & ->).
  apply (hex_part_bytes 4) in H1 as (b1 & L1 & ->). apply (hex_part_bytes 2) in H2 as (b2 & L2 & ->). apply (hex_part_bytes 2) in H3 as (b3 & L3 & ->).
  apply (hex_part_bytes 2) in H4 as (b4 & L4 & ->). apply (hex_part_bytes 6) in H5 as (b5 & L5 & ->).
  exists (b1 ++ b2 ++ b3 ++ b4 ++ b5). split; [rewrite !app_length; lia|].
  destruct b1 as [|? [|? [|? [|? [|]]]]]; try discriminate L1. destruct b2 as [|? [|? [|]]]; try discriminate L2. destruct b3 as [|? [|? [|]]]; try discriminate L3.
  destruct b4 as [|? [|? [|]]]; try discriminate L4. destruct b5 as [|? [|? [|? [|? [|? [|? [|]]]]]]]; try discriminate L5. reflexivity.
Qed.

(** ** Arrays *)
Lemma json_quoted s r : Forall plain_char s -> pg_quoted (flat_map json_char s ++ dquote :: r) = Some (s, r).
Proof.
  induction 1 as [|c s (H1 & H2 & H3 & H4) Hs IH]; [reflexivity|]. cbn [flat_map]. rewrite <- app_assoc. set (z := flat_map json_char s ++ dquote :: r) in *. clearbody z. unfold json_char.
  destruct (ceqb_spec c dquote) as [->|N1]; [cbn; rewrite IH; reflexivity|].
  destruct (ceqb_spec c "\"%char) as [->|N2]; [cbn; rewrite IH; reflexivity|].
  destruct (ceqb_spec c LF) as [->|]; [cbn in H1; lia|]. destruct (ceqb_spec c CR) as [->|]; [cbn in H1; lia|]. destruct (ceqb_spec c TAB) as [->|]; [cbn in H1; lia|].
  destruct (Nat.ltb_spec (cn c) 32); [lia|]. destruct (ceqb_spec c "<"%char); [contradiction|]. destruct (ceqb_spec c ">"%char); [contradiction|].
  destruct (ceqb_spec c "&"%char); [contradiction|]. cbn [orb app pg_quoted]. destruct (ceqb_spec c dquote); [contradiction|].
  destruct (ceqb_spec c "\"%char); [contradiction|]. rewrite IH. reflexivity.
Qed.
Definition closes (c : ascii) : Prop := c = comma \/ c = "}"%char.
Definition open_char (c : ascii) : Prop := c <> comma /\ c <> "}"%char /\ c <> dquote.
Lemma plain_reads e c r : Forall open_char e -> closes c -> pg_plain (e ++ c :: r) = (e, c :: r).
Proof.
  intros H Hc. induction H as [|x e (H1 & H2 & H3) He IH]; cbn [app pg_plain].
  - destruct Hc as [->| ->]; reflexivity.
  - destruct (ceqb_spec x comma); [contradiction|]. destruct (ceqb_spec x "}"%char); [contradiction|]. rewrite IH. reflexivity.
Qed.
Lemma digit_open c : is_digit c = true -> open_char c.
Proof. intros H. repeat split; intros ->; discriminate H. Qed.
Lemma Z_dec_open z : Forall open_char (Z_dec z) /\ Z_dec z <> [].
Proof.
  assert (N : forall n, Forall open_char (N_dec n)) by (intros n; eapply Forall_impl; [|apply N_dec_digits]; apply digit_open).
  destruct z; unfold Z_dec; (split; [auto|try apply N_dec_nonempty]).
  - constructor; [repeat split; discriminate|apply N].
  - discriminate.
Qed.
Lemma number_open b : Forall number_char b -> Forall open_char b.
Proof.
  apply Forall_impl. intros c [H|H]; [apply digit_open; exact H|]. cbn in H. intuition subst; repeat split; discriminate.
Qed.
(** What follows an element. *)
Definition pg_rest (n : nat) (a r : bytes) : option (list bytes) :=
  match r with
  | [c] => if ceqb c "}"%char then Some [a] else None
  | c :: r' => if ceqb c comma then match pg_elems n r' with Some l => Some (a :: l) | None => None end else None
  | [] => None
  end.
Lemma pg_elems_elem n e c r : plain_elem e -> closes c -> pg_elems (S n) (json_elem e ++ c :: r) = pg_rest n (elem_text e) (c :: r).
Proof.
  intros He Hc.
  assert (P : forall b, b <> [] -> Forall open_char b -> pg_elems (S n) (b ++ c :: r) = pg_rest n b (c :: r)).
  { intros b Nb Ob. destruct b as [|x b]; [contradiction|]. cbn [pg_elems app]. inversion Ob as [|? ? (_ & _ & Hq)]; subst.
    destruct (ceqb_spec x dquote); [contradiction|]. change (x :: b ++ c :: r) with ((x :: b) ++ c :: r). rewrite plain_reads by assumption. reflexivity. }
  destruct e as [z|[|]|b|b]; cbn [json_elem elem_text plain_elem] in *.
  - apply P; apply Z_dec_open.
  - apply P; [discriminate|]. repeat constructor; discriminate.
  - apply P; [discriminate|]. repeat constructor; discriminate.
  - apply P; [apply He|apply number_open, He].
  - unfold json_string. rewrite <- !app_assoc. cbn [app pg_elems]. change (ceqb dquote dquote) with true. cbv iota.
    rewrite (json_quoted b (c :: r) He). reflexivity.
Qed.
Lemma json_elem_nonempty e : plain_elem e -> json_elem e <> [].
Proof. destruct e as [z|[|]|b|b]; cbn [json_elem plain_elem]; intros H; try discriminate; [apply Z_dec_open|apply H]. Qed.
Lemma pg_elems_json l n : l <> [] -> Forall plain_elem l -> List.length (join (B",") (map json_elem l)) < n ->
  pg_elems n (join (B",") (map json_elem l) ++ B"}") = Some (map elem_text l).
Proof.
  intros Ne Hl. revert n. induction Hl as [|e l He Hl IH]; [contradiction|]. intros n Hn. destruct n as [|n]; [lia|].
  destruct l as [|e' l].
  - cbn [map join]. change (B"}") with ["}"%char]. rewrite pg_elems_elem by (auto; right; reflexivity). reflexivity.
  - cbn [map] in Hn |- *. rewrite CsvFacts.join_cons in Hn |- *. rewrite !app_length in Hn. rewrite <- !app_assoc. change (B"," ++ ?x) with (comma :: x).
    rewrite pg_elems_elem by (auto; left; reflexivity). cbn [map] in IH. unfold pg_rest.
    assert (D : exists y ys, (join (B",") (json_elem e' :: map json_elem l) ++ B"}") = y :: ys)
      by (destruct (join (B",") (json_elem e' :: map json_elem l)); [exists "}"%char, []|eexists; eexists]; reflexivity).
    specialize (IH ltac:(discriminate) n). rewrite IH.
    + destruct D as (y & ys & D). rewrite D. reflexivity.
    + change (List.length (B",")) with 1 in Hn. lia.
Qed.
Lemma json_array_reads l : l <> [] -> Forall plain_elem l ->
  pg_array (B"{" ++ removelast (tl (json_array l)) ++ B"}") = Some (map elem_text l) /\ 2 < List.length (json_array l).
Proof.
  intros Ne Hl. unfold json_array. set (j := join (B",") (map json_elem l)).
  assert (Nj : j <> []).
  { unfold j. destruct Hl as [|e l He Hl]; [contradiction|]. cbn [map]. destruct (map json_elem l) as [|? ?]; [apply json_elem_nonempty; exact He|].
    rewrite CsvFacts.join_cons. intros E. apply app_eq_nil in E as [_ E]. discriminate. }
  split.
  - change (tl (B"[" ++ j ++ B"]")) with (j ++ ["]"%char]). rewrite removelast_last. unfold pg_array. rewrite strip_prefix_app.
    destruct (beqb_spec (j ++ B"}") (B"}")) as [E|_].
    + destruct j as [|x j]; [contradiction|]. cbn in E. injection E as _ E. apply app_eq_nil in E as [_ E]. discriminate.
    + apply pg_elems_json; [assumption..|]. fold j. rewrite app_length. change (List.length (B"}")) with 1. lia.
  - rewrite !app_length. change (List.length (B"[")) with 1. change (List.length (B"]")) with 1. destruct j; [contradiction|]. cbn [Datatypes.length]. lia.
Qed.

(** ** Types *)
Lemma one_of_In t l : one_of t l = true <-> In t (map B l).
Proof. unfold one_of. apply bmem_In. Qed.
Ltac known_type H := apply one_of_In in H; cbn [map In] in H; repeat destruct H as [H|H]; [..|destruct H]; rewrite <- H in *; clear H.

Lemma array_type c t : dp_dialect c = Postgres -> has_suffix t (B"[]") = true -> class_of Postgres t = CList.
Proof.
  intros _ H. unfold class_of.
  repeat match goal with |- context [one_of t ?l] => destruct (one_of t l) eqn:E; [known_type E; vm_compute in H; discriminate|clear E] end.
  rewrite H. reflexivity.
Qed.
Definition array_types : list string :=
  ["BOOLEAN[]"; "SMALLINT[]"; "INT[]"; "INTEGER[]"; "BIGINT[]"; "NUMERIC[]"; "REAL[]"; "DOUBLE PRECISION[]"; "VARCHAR[]"; "CHAR[]"; "TEXT[]"]%string.
Lemma scan_class c t : dp_dialect c <> SQLite ->
  scan_kind c t = match class_of (dp_dialect c) t with
                  | CBlob => KBytes | CBool => KBool | CFloat => KFloat | CInt => KInt | CTime => KTime | CText => KString
                  | CList => if dp_json c && one_of t array_types then KArray else KString
                  end.
Proof.
  intros Hd. unfold scan_kind. destruct (dialect_eqb (dp_dialect c) Postgres && dp_json c && one_of t array_types) eqn:A.
  - apply andb_true_iff in A as [A A3]. apply andb_true_iff in A as [A1 A2]. fold array_types. rewrite A2, A3.
    destruct (dp_dialect c) eqn:D; try discriminate. cbn [dialect_eqb andb].
    rewrite (array_type c t D); [reflexivity|]. known_type A3; reflexivity.
  - unfold class_of. destruct (dp_dialect c) eqn:D; [contradiction|..]; cbn [dialect_eqb andb] in A |- *; fold array_types.
    2-4: repeat match goal with |- context [one_of ?x ?l] => destruct (one_of x l); [reflexivity|] end; reflexivity.
    rewrite A. repeat match goal with |- context [one_of t ?l] => lazymatch l with array_types => fail | _ => destruct (one_of t l); [reflexivity|] end end.
    destruct (has_suffix t (B"[]")); reflexivity.
Qed.
Lemma scan_sqlite c t : dp_dialect c = SQLite -> scan_kind c t = match class_of SQLite t with CTime => KTime | _ => KString end.
Proof.
  intros Hd. unfold scan_kind. rewrite Hd. unfold class_of.
  destruct (one_of t ["BINARY"; "VARBINARY"; "TINYBLOB"; "BLOB"; "MEDIUMBLOB"; "LONGBLOB"]%string) eqn:E; [known_type E; reflexivity|].
  destruct (one_of t ["DATETIME"; "TIMESTAMP"]%string); [reflexivity|].
  repeat match goal with |- context [one_of t ?l] => destruct (one_of t l); [reflexivity|] end. reflexivity.
Qed.
Lemma class_binary d t : binary_type t = true -> class_of d t = CBlob \/ (class_of d t = CText /\ one_of t ["UUID"; "BYTEA"; "VARBIT"]%string = true).
Proof. intros H. unfold binary_type in H. known_type H; destruct d; vm_compute; auto. Qed.
Lemma class_blob d t : class_of d t = CBlob -> binary_type t = true /\ one_of t ["UUID"]%string = false /\ has_suffix t (B"[]") = false
  /\ (d = SQLite -> one_of t ["BINARY"; "VARBINARY"; "TINYBLOB"; "BLOB"; "MEDIUMBLOB"; "LONGBLOB"]%string = true).
Proof.
  intros H. assert (K : one_of t ["BYTEA"; "BINARY"; "VARBINARY"; "TINYBLOB"; "BLOB"; "MEDIUMBLOB"; "LONGBLOB"; "VARBIT"]%string = true).
  { destruct (one_of t ["BYTEA"; "BINARY"; "VARBINARY"; "TINYBLOB"; "BLOB"; "MEDIUMBLOB"; "LONGBLOB"; "VARBIT"]%string) eqn:E; [reflexivity|].
    destruct d; unfold class_of in H; rewrite ?E in H;
      [destruct (one_of t ["BINARY"; "VARBINARY"; "TINYBLOB"; "BLOB"; "MEDIUMBLOB"; "LONGBLOB"]%string) eqn:E2; [known_type E2; discriminate E|]|..];
      repeat match type of H with context [if ?b then _ else _] => destruct b; try discriminate H end. }
  known_type K; (split; [reflexivity|]; split; [reflexivity|]; split; [reflexivity|]; intros ->; first [reflexivity|discriminate H]).
Qed.
(** Text in types that are not binary is written as it is. *)
Lemma string_raw c t s : binary_type t = false -> string_field c t s = s.
Proof.
  intros H. unfold string_field.
  destruct (one_of t ["BINARY"; "VARBINARY"; "TINYBLOB"; "BLOB"; "MEDIUMBLOB"; "LONGBLOB"]%string) eqn:E; [known_type E; discriminate H|].
  destruct (one_of t ["UUID"]%string) eqn:E2; [known_type E2; discriminate H|reflexivity].
Qed.

Section Agree.
Context (fmt : Z -> bytes) (out : list elem -> bytes) (stamp : bytes -> option Z) (c : dump_config) (l : load_config) (t : bytes).
Context (A : agree c l) (W : writes_arrays out).
Local Notation d := (dp_dialect c).

Lemma load_null : load_field stamp l t (dp_null c) = Ok RNil.
Proof. destruct A as (_ & -> & _ & _ & E & _). unfold load_field. rewrite E, beqb_refl. reflexivity. Qed.
Lemma load_raw f : f <> dp_null c -> (binary_type t = true -> has_prefix f (dp_prefix c) = false) ->
  (d = Postgres -> has_suffix t (B"[]") = true -> (2 <? List.length f) && has_prefix f (B"[") && has_suffix f (B"]") = false) ->
  load_field stamp l t f = Ok (RString f).
Proof.
  destruct A as (Ed & En & Ep & Np & E1 & E2 & E3). intros H1 H2 H3. unfold load_field. rewrite E1, E2, E3. rewrite Ed, En, Ep in *. cbn [negb andb].
  destruct (beqb_spec f (ld_null l)); [contradiction|]. rewrite !andb_true_r.
  assert (X : binary_type t && negb (beqb (ld_prefix l) []) && has_prefix f (ld_prefix l) = false)
    by (destruct (binary_type t); [rewrite H2 by reflexivity; apply andb_false_r|reflexivity]).
  rewrite X. assert (Y : dialect_eqb (ld_dialect l) Postgres && has_suffix t (B"[]") && (2 <? List.length f) && has_prefix f (B"[") && has_suffix f (B"]") = false).
  { destruct (ld_dialect l); try reflexivity. cbn [dialect_eqb andb]. destruct (has_suffix t (B"[]")); [|reflexivity]. cbn [andb]. apply H3; reflexivity. }
  rewrite Y, andb_false_r. reflexivity.
Qed.
Lemma load_blob b : binary_type t = true -> one_of t ["UUID"]%string && dialect_eqb d Postgres = false -> dp_prefix c ++ hex_encode b <> dp_null c ->
  load_field stamp l t (dp_prefix c ++ hex_encode b) = Ok (RBytes b).
Proof.
  destruct A as (Ed & En & Ep & Np & E1 & E2 & E3). intros H1 H2 H3. unfold load_field. rewrite E1, E2, H1. rewrite Ed, En, Ep in *. cbn [negb andb].
  destruct (beqb_spec (ld_prefix l ++ hex_encode b) (ld_null l)); [contradiction|]. rewrite has_prefix_app.
  destruct (beqb_spec (ld_prefix l) []); [contradiction|]. cbn [negb andb]. rewrite trim_prefix_app, unhex_encode.
  rewrite andb_comm in H2. rewrite H2. reflexivity.
Qed.
Lemma load_uuid b : d = Postgres -> one_of t ["UUID"]%string = true -> List.length b = 16 -> dp_prefix c ++ hex_encode b <> dp_null c ->
  load_field stamp l t (dp_prefix c ++ hex_encode b) = Ok (RString (uuid_text b)).
Proof.
  destruct A as (Ed & En & Ep & Np & E1 & E2 & E3). intros H1 H2 Hb H3. unfold load_field. rewrite E1, E2. rewrite Ed, En, Ep in *. cbn [negb andb].
  assert (Ht : binary_type t = true) by (known_type H2; reflexivity). rewrite Ht, H1, H2.
  destruct (beqb_spec (ld_prefix l ++ hex_encode b) (ld_null l)); [contradiction|]. rewrite has_prefix_app.
  destruct (beqb_spec (ld_prefix l) []); [contradiction|]. cbn [negb andb]. rewrite trim_prefix_app, unhex_encode. cbn [dialect_eqb andb]. rewrite Hb. reflexivity.
Qed.

Lemma not_binary k : class_of d t = k -> k <> CBlob -> k <> CText -> binary_type t = false.
Proof. intros H N1 N2. destruct (binary_type t) eqn:E; [|reflexivity]. destruct (class_binary d t E) as [X|[X _]]; congruence. Qed.
Lemma not_array k : class_of d t = k -> k <> CList -> d = Postgres -> has_suffix t (B"[]") = true -> False.
Proof. intros H N D S. apply (array_type c t D) in S. rewrite D in H. congruence. Qed.

Lemma field_survives v : survives c t v -> dump_field fmt out c t v <> Ok (dp_null c) \/ v = DNull ->
  exists f r, dump_field fmt out c t v = Ok f /\ load_field stamp l t f = Ok r /\ holds fmt (class_of d t) r v.
Proof.
  intros [F Q] Nn. set (k := class_of d t) in *. assert (K : class_of d t = k) by reflexivity.
  destruct v as [|b|z|b|s|b|s n|a]; cbn [fits] in F.
  - (* NULL *) exists (dp_null c), RNil. split; [|split; [apply load_null|constructor]].
    unfold dump_field. destruct (scan_kind c t) eqn:E; try reflexivity. exfalso.
    destruct (dialect_eqb d SQLite) eqn:D; [destruct d eqn:D2; try discriminate; rewrite (scan_sqlite c t D2) in E; destruct (class_of SQLite t); discriminate|].
    rewrite scan_class in E by (intros D2; rewrite D2 in D; discriminate). rewrite K in E. destruct k; try discriminate. rewrite Q in E by reflexivity. discriminate.
  - (* bool *) destruct Nn as [Nn|]; [|discriminate]. destruct k eqn:Ek; try contradiction.
    assert (D : d <> SQLite) by (intros D; rewrite D in K; unfold class_of in K; repeat match type of K with context [one_of t ?x] => destruct (one_of t x); [discriminate|] end; discriminate).
    unfold dump_field in *. rewrite scan_class, K in * by exact D. eexists; eexists. split; [reflexivity|]. split; [apply load_raw|constructor].
    + congruence.
    + rewrite (not_binary _ K) by discriminate. discriminate.
    + intros D2 S. exfalso. exact (not_array _ K ltac:(discriminate) D2 S).
  - (* int *) destruct Nn as [Nn|]; [|discriminate]. destruct k eqn:Ek; try contradiction.
    assert (E : dump_field fmt out c t (DInt z) = Ok (Z_dec z)).
    { unfold dump_field. destruct (dialect_eqb d SQLite) eqn:D.
      - destruct d eqn:D2; try discriminate. rewrite (scan_sqlite c t D2), K. rewrite string_raw by (rewrite <- D2 in K; apply (not_binary _ K); discriminate). reflexivity.
      - rewrite scan_class, K by (intros D2; rewrite D2 in D; discriminate). reflexivity. }
    rewrite E in *. eexists; eexists. split; [reflexivity|]. split; [apply load_raw|constructor].
    + congruence.
    + rewrite (not_binary _ K) by discriminate. discriminate.
    + intros D2 S. exfalso. exact (not_array _ K ltac:(discriminate) D2 S).
  - (* float *) destruct Nn as [Nn|]; [|discriminate]. destruct k eqn:Ek; try contradiction.
    assert (E : dump_field fmt out c t (DFloat b) = Ok b).
    { unfold dump_field. destruct (dialect_eqb d SQLite) eqn:D.
      - destruct d eqn:D2; try discriminate. rewrite (scan_sqlite c t D2), K. rewrite string_raw by (rewrite <- D2 in K; apply (not_binary _ K); discriminate). reflexivity.
      - rewrite scan_class, K by (intros D2; rewrite D2 in D; discriminate). reflexivity. }
    rewrite E in *. eexists; eexists. split; [reflexivity|]. split; [apply load_raw|constructor].
    + congruence.
    + rewrite (not_binary _ K) by discriminate. discriminate.
    + intros D2 S. exfalso. exact (not_array _ K ltac:(discriminate) D2 S).
  - (* text *) destruct Nn as [Nn|]; [|discriminate]. destruct k eqn:Ek; try contradiction.
    assert (E : dump_field fmt out c t (DText s) = Ok (string_field c t s)).
    { unfold dump_field. destruct (dialect_eqb d SQLite) eqn:D.
      - destruct d eqn:D2; try discriminate. rewrite (scan_sqlite c t D2), K. reflexivity.
      - rewrite scan_class, K by (intros D2; rewrite D2 in D; discriminate). reflexivity. }
    rewrite E in *. clear E.
    destruct (binary_type t) eqn:Bt.
    + destruct (class_binary d t Bt) as [X|[_ X]]; [congruence|]. destruct (Q X) as [(D & U & Cu)|(Hp & HP & HS)]; [apply canonical_bytes in Cu as (b & Hb & ->)|].
      * assert (Eu : one_of t ["UUID"]%string = true).
        { known_type X; [reflexivity|..]; exfalso; rewrite D in K; vm_compute in K; discriminate. }
        assert (E : string_field c t (uuid_text b) = dp_prefix c ++ hex_encode b).
        { unfold string_field. rewrite Eu, D, U. assert (Y : one_of t ["BINARY"; "VARBINARY"; "TINYBLOB"; "BLOB"; "MEDIUMBLOB"; "LONGBLOB"]%string = false) by (known_type Eu; reflexivity).
          rewrite Y. cbn [dialect_eqb andb]. rewrite uuid_dashes by exact Hb. reflexivity. }
        rewrite E in *. eexists; eexists. split; [reflexivity|]. split; [apply load_uuid; auto; congruence|constructor].
      * assert (E : string_field c t s = s).
        { unfold string_field. destruct (one_of t ["BINARY"; "VARBINARY"; "TINYBLOB"; "BLOB"; "MEDIUMBLOB"; "LONGBLOB"]%string) eqn:Y; [exfalso; known_type Y; discriminate X|].
          destruct (one_of t ["UUID"]%string); [|reflexivity].
          destruct d eqn:D; cbn [dialect_eqb andb]; try reflexivity.
          - specialize (HS eq_refl). destruct (Nat.eqb_spec (List.length s) 16); [contradiction|reflexivity].
          - rewrite HP by reflexivity. reflexivity. }
        rewrite E in *. eexists; eexists. split; [reflexivity|]. split; [apply load_raw|constructor].
        -- congruence.
        -- auto.
        -- intros D2 Sx. exfalso. exact (not_array _ K ltac:(discriminate) D2 Sx).
    + rewrite string_raw in * by exact Bt. eexists; eexists. split; [reflexivity|]. split; [apply load_raw|constructor].
      * congruence.
      * congruence.
      * intros D2 Sx. exfalso. exact (not_array _ K ltac:(discriminate) D2 Sx).
  - (* blob *) destruct Nn as [Nn|]; [|discriminate]. destruct k eqn:Ek; try contradiction. destruct (class_blob d t K) as (Bt & Ut & At & St).
    assert (E : dump_field fmt out c t (DBlob b) = Ok (dp_prefix c ++ hex_encode b)).
    { unfold dump_field. destruct (dialect_eqb d SQLite) eqn:D.
      - destruct d eqn:D2; try discriminate. rewrite (scan_sqlite c t D2), K. unfold string_field. rewrite St by reflexivity. reflexivity.
      - assert (D2 : d <> SQLite) by (intros D2; rewrite D2 in D; discriminate). rewrite scan_class, K by exact D2. specialize (Q D2). destruct b; [contradiction|reflexivity]. }
    rewrite E in *. eexists; eexists. split; [reflexivity|]. split; [apply load_blob; [exact Bt|rewrite Ut; reflexivity|intros X; apply Nn; rewrite X; reflexivity]|constructor].
  - (* time *) destruct Nn as [Nn|]; [|discriminate]. destruct k eqn:Ek; try contradiction. subst n.
    assert (E : dump_field fmt out c t (DTime s 0) = Ok (fmt s)).
    { unfold dump_field. destruct (dialect_eqb d SQLite) eqn:D.
      - destruct d eqn:D2; try discriminate. rewrite (scan_sqlite c t D2), K. reflexivity.
      - rewrite scan_class, K by (intros D2; rewrite D2 in D; discriminate). reflexivity. }
    rewrite E in *. eexists; eexists. split; [reflexivity|]. split; [apply load_raw|constructor].
    + congruence.
    + rewrite (not_binary _ K) by discriminate. discriminate.
    + intros D2 S. exfalso. exact (not_array _ K ltac:(discriminate) D2 S).
  - (* array *) destruct Nn as [Nn|]; [|discriminate]. destruct k eqn:Ek; try contradiction.
    assert (Bt : binary_type t = false) by (apply (not_binary _ K); discriminate).
    assert (D : d = Postgres /\ has_suffix t (B"[]") = true).
    { unfold class_of in K. destruct d; try (repeat match type of K with context [one_of t ?x] => destruct (one_of t x); [discriminate|] end; cbn [dialect_eqb andb] in K; try discriminate).
      destruct (has_suffix t (B"[]")); [auto|discriminate]. }
    destruct D as (D & Sx). assert (D2 : d <> SQLite) by congruence.
    unfold dump_field in *. rewrite scan_class, K in * by exact D2. destruct (dp_json c && one_of t array_types) eqn:J.
    + apply andb_true_iff in J as [J _]. destruct (Q J) as (Na & Pa). destruct (json_array_reads a Na Pa) as (R1 & R2).
      eexists; eexists. split; [reflexivity|]. split; [|constructor; exact R1].
      destruct A as (Ed & En & Ep & Np & E1 & E2 & E3). unfold load_field. rewrite E1, E2, Bt, <- Ed, D, Sx. cbn [negb andb dialect_eqb].
      destruct (beqb_spec (json_array a) (ld_null l)); [exfalso; apply Nn; congruence|]. apply Nat.ltb_lt in R2. rewrite R2.
      unfold json_array at 1 2. rewrite has_prefix_app, app_assoc, has_suffix_app. reflexivity.
    + rewrite string_raw in * by exact Bt. eexists; eexists. split; [reflexivity|]. split; [apply load_raw|constructor; apply W].
      * congruence.
      * congruence.
      * intros _ _. specialize (W a). unfold pg_array in W. destruct (strip_prefix (B"{") (out a)) as [r|] eqn:P; [|discriminate].
        apply strip_prefix_Some in P. rewrite P. rewrite andb_comm. cbn [has_prefix strip_prefix]. cbn. apply andb_false_r || (rewrite !andb_false_r; reflexivity) || reflexivity.
Qed.
End Agree.
