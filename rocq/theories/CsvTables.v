(** Proofs about the CSV files: whole tables and file names. *)
From Verif Require Import GoStr GoStrFacts ModelSq ModelDdl ModelCsv SpecCsv CsvFacts CsvFields.
From Coq Require Import ZifyBool ZifyNat ZifyN.

(** ** What is written for a value *)
Inductive form (fmt : Z -> bytes) (out : list elem -> bytes) (c : dump_config) : value -> bytes -> Prop :=
| form_null : form fmt out c DNull (dp_null c)
| form_hex v b : v <> DNull -> form fmt out c v (dp_prefix c ++ hex_encode b)
| form_bool (b : bool) : form fmt out c (DBool b) (if b then B"1" else B"0")
| form_int z : form fmt out c (DInt z) (Z_dec z)
| form_float b : form fmt out c (DFloat b) b
| form_text b : form fmt out c (DText b) b
| form_time s n : form fmt out c (DTime s n) (fmt s)
| form_out a : form fmt out c (DArray a) (out a)
| form_json a : Forall plain_elem a -> form fmt out c (DArray a) (json_array a).

Lemma field_form fmt out c t v f : survives c t v -> dump_field fmt out c t v = Ok f -> form fmt out c v f.
Proof.
  intros [F Q] E. unfold dump_field in E.
  destruct (dialect_eqb (dp_dialect c) SQLite) eqn:D.
  - destruct (dp_dialect c) eqn:D2; try discriminate. rewrite (scan_sqlite c t D2) in E. destruct (class_of SQLite t) eqn:K; cbv iota in E.
    all: destruct v; cbn [fits] in F; try contradiction; try discriminate E; try (injection E as <-; constructor; discriminate).
    + destruct (class_blob _ _ K) as (_ & _ & _ & St). unfold string_field in E. rewrite St in E by reflexivity. injection E as <-. constructor. discriminate.
    + rewrite <- D2 in K. rewrite string_raw in E by (apply (not_binary c t _ K); discriminate). injection E as <-. constructor.
    + rewrite <- D2 in K. rewrite string_raw in E by (apply (not_binary c t _ K); discriminate). injection E as <-. constructor.
    + rewrite <- D2 in K. rewrite string_raw in E by (apply (not_binary c t _ K); discriminate). injection E as <-. constructor.
    + unfold string_field in E.
      destruct (one_of t ["BINARY"; "VARBINARY"; "TINYBLOB"; "BLOB"; "MEDIUMBLOB"; "LONGBLOB"]%string); [injection E as <-; constructor; discriminate|].
      rewrite D2 in E. cbn [dialect_eqb andb] in E.
      destruct (one_of t ["UUID"]%string); [destruct (_ =? _)|]; injection E as <-; constructor; discriminate.
  - assert (D2 : dp_dialect c <> SQLite) by (intros D2; rewrite D2 in D; discriminate). rewrite scan_class in E by exact D2.
    destruct (class_of (dp_dialect c) t) eqn:K; cbv iota in E.
    all: destruct v; cbn [fits] in F; try contradiction; try discriminate E; try (injection E as <-; constructor; discriminate).
    + specialize (Q D2). destruct b; [contradiction|]. assert (X : f = dp_prefix c ++ hex_encode (a :: b)) by congruence. rewrite X. constructor. discriminate.
    + rewrite Q in E by reflexivity. cbn [andb] in E. injection E as <-. constructor.
    + destruct (dp_json c && one_of t array_types) eqn:J.
      * apply andb_true_iff in J as [J _]. injection E as <-. constructor. apply Q. exact J.
      * rewrite string_raw in E by (apply (not_binary c t _ K); discriminate). injection E as <-. constructor.
    + destruct (binary_type t) eqn:Bt.
      * destruct (class_binary (dp_dialect c) t Bt) as [X|[_ X]]; [rewrite K in X; discriminate X|]. unfold string_field in E.
        destruct (one_of t ["BINARY"; "VARBINARY"; "TINYBLOB"; "BLOB"; "MEDIUMBLOB"; "LONGBLOB"]%string); [injection E as <-; constructor; discriminate|].
        destruct (one_of t ["UUID"]%string); [|injection E as <-; constructor].
        destruct (dialect_eqb (dp_dialect c) SQLite && _) ; [injection E as <-; constructor; discriminate|].
        destruct (Q X) as [(HD & HU & Cu)|(_ & HP & _)]; [apply canonical_bytes in Cu as (b' & Hb & ->)|].
        -- rewrite HD, HU in E. cbn [dialect_eqb andb] in E. rewrite uuid_dashes in E by exact Hb. injection E as <-. constructor. discriminate.
        -- destruct (dialect_eqb (dp_dialect c) Postgres) eqn:HD; [|injection E as <-; constructor].
           destruct (dp_dialect c); try discriminate. rewrite HP in E by reflexivity. injection E as <-. constructor.
      * rewrite string_raw in E by exact Bt. injection E as <-. constructor.
Qed.

(** ** Nothing but text is mistaken for the default null string *)
Lemma Z_dec_chars z : Forall (fun x => is_digit x = true \/ x = "-"%char) (Z_dec z).
Proof.
  assert (N : forall n, Forall (fun x => is_digit x = true \/ x = "-"%char) (N_dec n)) by (intros n; eapply Forall_impl; [|apply N_dec_digits]; auto).
  destruct z; unfold Z_dec; auto.
Qed.
Lemma default_not_null fmt out d json uuid t v : let c := dump_defaults d [] [] json uuid in
  writes_arrays out -> (forall z, fmt z <> B"\N") -> survives c t v -> v <> DNull -> v <> DText (B"\N") -> v <> DFloat (B"\N") ->
  dump_field fmt out c t v <> Ok (dp_null c).
Proof.
  intros c W Hf S N1 N2 N3 E. apply (field_form _ _ _ _ _ _ S) in E. cbn [dp_null dump_defaults c or_default] in E.
  change (dp_null c) with (B"\N") in E. remember (B"\N") as f eqn:Ef.
  destruct E as [|v b Nv|b|z|b|b|s n|a|a Ha]; try congruence.
  - discriminate Ef.
  - destruct b; discriminate Ef.
  - pose proof (Z_dec_chars z) as F. rewrite Ef in F. inversion F as [|? ? [H|H]]; subst; discriminate H.
  - specialize (W a). rewrite Ef in W. discriminate W.
  - discriminate Ef.
Qed.

(** ** One line *)
Lemma no_cr_crlf s : ~ In CR s -> no_crlf s.
Proof. intros H a b ->. apply H. apply in_or_app. right. left. reflexivity. Qed.
Lemma hex_no_cr s : ~ In CR (hex_encode s).
Proof. intros I. pose proof (hex_encode_chars s) as F. rewrite Forall_forall in F. apply F in I. cbn in I. intuition discriminate. Qed.
Lemma in_join c sep l : In c (join sep l) -> In c sep \/ exists x, In x l /\ In c x.
Proof.
  induction l as [|x l IH]; [intros []|]. destruct l as [|y l]; [intros I; right; exists x; split; [left; reflexivity|exact I]|].
  rewrite CsvFacts.join_cons. intros I. apply in_app_or in I as [I|I]; [right; exists x; split; [left; reflexivity|exact I]|].
  apply in_app_or in I as [I|I]; [auto|]. destruct (IH I) as [H|(z & H1 & H2)]; [auto|]. right. exists z. split; [right; exact H1|exact H2].
Qed.
Lemma json_no_cr a : Forall plain_elem a -> ~ In CR (json_array a).
Proof.
  intros F I. unfold json_array in I. apply in_app_or in I as [I|I]; [cbn in I; intuition discriminate|].
  apply in_app_or in I as [I|I]; [|cbn in I; intuition discriminate]. apply in_join in I as [I|(x & I1 & I2)]; [cbn in I; intuition discriminate|].
  apply in_map_iff in I1 as (e & <- & I1). rewrite Forall_forall in F. specialize (F e I1). destruct e as [z|[|]|b|b]; cbn [json_elem plain_elem] in *.
  - pose proof (Z_dec_chars z) as G. rewrite Forall_forall in G. apply G in I2 as [H|H]; discriminate H.
  - cbn in I2; intuition discriminate.
  - cbn in I2; intuition discriminate.
  - destruct F as [_ F]. rewrite Forall_forall in F. apply F in I2 as [H|H]; [discriminate H|]. cbn in H. intuition discriminate.
  - unfold json_string in I2. apply in_app_or in I2 as [I2|I2]; [cbn in I2; intuition discriminate|].
    apply in_app_or in I2 as [I2|I2]; [|cbn in I2; intuition discriminate].
    apply in_flat_map in I2 as (x & I3 & I4). rewrite Forall_forall in F. apply F in I3 as (H & _). unfold json_char in I4.
    repeat match type of I4 with context [if ?k then _ else _] => destruct k; [cbn in I4; intuition discriminate|] end.
    destruct (_ || _) eqn:Eo in I4.
    + apply in_app_or in I4 as [I4|I4]; [cbn in I4; intuition discriminate|]. exact (hex_no_cr _ I4).
    + destruct I4 as [->|[]]. cbn in H. lia.
Qed.
Lemma form_one_line fmt out c v f : one_line fmt out c -> keeps_lines v -> form fmt out c v f -> no_crlf f.
Proof.
  intros (H1 & H2 & H3 & H4) Hk F. destruct F as [|v b Nv|b|z|b|b|s n|a|a Ha]; cbn [keeps_lines] in *; auto; apply no_cr_crlf; auto.
  - intros I. apply in_app_or in I as [I|I]; [auto|]. exact (hex_no_cr _ I).
  - destruct b; cbn; intuition discriminate.
  - intros I. pose proof (Z_dec_chars z) as G. rewrite Forall_forall in G. apply G in I as [H|H]; discriminate H.
  - apply H1.
  - apply json_no_cr. exact Ha.
Qed.
Lemma form_not_blank fmt out c v f : one_line fmt out c -> writes_arrays out -> dp_null c <> [] -> dp_prefix c <> [] -> ~ is_blank v -> form fmt out c v f -> f <> [].
Proof.
  intros (H1 & H2 & H3 & H4) W Hn Hp Nb F. destruct F as [|v b Nv|b|z|b|b|s n|a|a Ha].
  - exact Hn.
  - intros E. apply app_eq_nil in E as [E _]. contradiction.
  - destruct b; discriminate.
  - apply Z_dec_open.
  - intros ->. apply Nb. right. reflexivity.
  - intros ->. apply Nb. left. reflexivity.
  - apply H1.
  - intros E. specialize (W a). rewrite E in W. discriminate W.
  - discriminate.
Qed.

(** ** Tables *)
Lemma mapr_all {X Y} (f : X -> result Y) (P : X -> Y -> Prop) l : Forall (fun x => exists y, f x = Ok y /\ P x y) l ->
  exists ys, mapr f l = Ok ys /\ Forall2 P l ys.
Proof.
  induction 1 as [|x l (y & E & H) Hl (ys & IH1 & IH2)]; [exists []; split; [reflexivity|constructor]|].
  exists (y :: ys). cbn [mapr bindr]. rewrite E. cbn [bindr]. rewrite IH1. split; [reflexivity|constructor; assumption].
Qed.
Lemma nl_ids (r : list bytes) : Forall no_crlf r -> map (replace2 CR LF [LF]) r = r.
Proof. induction 1 as [|f r H Hr IH]; [reflexivity|]. cbn [map]. rewrite (nl_id f H), IH. reflexivity. Qed.

Section Tables.
Context (fmt : Z -> bytes) (out : list elem -> bytes) (stamp : bytes -> option Z) (sp : bytes -> bool) (c : dump_config) (l : load_config).
Context (A : agree c l) (W : writes_arrays out) (O : one_line fmt out c) (Hn : dp_null c <> []).

Lemma row_dumped types row : row_survives fmt out c types row ->
  exists rec, dump_row fmt out c types row = Ok rec /\ Forall no_crlf rec /\ List.length rec = List.length types /\ (types <> [] -> visible rec = true)
    /\ exists vals, load_row stamp l types rec = Ok vals /\ Forall2 (fun p => holds fmt (class_of (dp_dialect c) (fst p)) (snd p)) (combine types vals) row.
Proof.
  intros [F N].
  assert (K : exists rec vals, dump_row fmt out c types row = Ok rec /\ Forall2 (form fmt out c) row rec /\ Forall no_crlf rec /\ List.length rec = List.length types
    /\ mapr (fun p => load_field stamp l (fst p) (snd p)) (combine types rec) = Ok vals
    /\ Forall2 (fun p => holds fmt (class_of (dp_dialect c) (fst p)) (snd p)) (combine types vals) row).
  { clear N. unfold dump_row. induction F as [|t v types row (H1 & H2 & H3) Hr (rec & vals & I1 & I2 & I3 & I4 & I5 & I6)].
    - exists [], []. repeat split; constructor.
    - destruct (field_survives fmt out stamp c l t A W v H1) as (f & r & E1 & E2 & E3); [tauto|].
      exists (f :: rec), (r :: vals). cbn [combine mapr fst snd]. rewrite E1. cbn [bindr]. rewrite I1. cbn [bindr].
      pose proof (field_form _ _ _ _ _ _ H1 E1) as Ff. split; [reflexivity|]. split; [constructor; assumption|].
      split; [constructor; [apply (form_one_line _ _ _ _ _ O H3 Ff)|exact I3]|]. split; [cbn [Datatypes.length]; f_equal; exact I4|].
      rewrite E2. cbn [bindr]. rewrite I5. cbn [bindr]. split; [reflexivity|]. constructor; [exact E3|exact I6]. }
  destruct K as (rec & vals & K1 & K2 & K3 & K4 & K5 & K6). exists rec. split; [exact K1|]. split; [exact K3|]. split; [exact K4|]. split.
  - intros Nt. destruct rec as [|f [|g rec]]; [destruct types; [contradiction|discriminate]| |destruct f; reflexivity].
    inversion K2 as [|v ? row' ? Hf Hr]; subst. inversion Hr; subst. destruct A as (_ & _ & _ & Np & _).
    assert (f <> []) by (apply (form_not_blank _ _ _ _ _ O W Hn Np (N v eq_refl) Hf)). destruct f; [contradiction|reflexivity].
  - exists vals. unfold load_row. rewrite K4, Nat.eqb_refl. split; [exact K5|exact K6].
Qed.

(** A table that was dumped is loaded with the same values. *)
Theorem table_survives names types type_of rows broke :
  List.length names = List.length types -> Forall no_crlf names -> visible names = true -> map type_of names = types ->
  Forall (row_survives fmt out c types) rows ->
  exists text vals, dump_table fmt out sp c names types rows broke = Ok text
    /\ load_table stamp l type_of text = Ok (names, vals)
    /\ Forall2 (fun vs row => Forall2 (fun p => holds fmt (class_of (dp_dialect c) (fst p)) (snd p)) (combine types vs) row) vals rows.
Proof.
  intros Hl Hnames Hv Ht Hrows. unfold dump_table.
  assert (Nt : types <> []) by (destruct names; [discriminate|destruct types; discriminate]).
  assert (K : exists recs vals, mapr (dump_row fmt out c types) rows = Ok recs /\ Forall (Forall no_crlf) recs /\ Forall (fun r => visible r = true) recs
    /\ mapr (load_row stamp l types) recs = Ok vals
    /\ Forall2 (fun vs row => Forall2 (fun p => holds fmt (class_of (dp_dialect c) (fst p)) (snd p)) (combine types vs) row) vals rows).
  { induction Hrows as [|row rows H Hr (recs & vals & I1 & I2 & I3 & I4 & I5)]; [exists [], []; repeat split; constructor|].
    destruct (row_dumped types row H) as (rec & E1 & E2 & E3 & E4 & vs & E5 & E6). exists (rec :: recs), (vs :: vals).
    cbn [mapr bindr]. rewrite E1. cbn [bindr]. rewrite I1. cbn [bindr]. split; [reflexivity|]. split; [constructor; assumption|]. split; [constructor; auto|].
    rewrite E5. cbn [bindr]. rewrite I4. cbn [bindr]. split; [reflexivity|constructor; assumption]. }
  destruct K as (recs & vals & K1 & K2 & K3 & K4 & K5). rewrite K1. cbn [bindr]. eexists. exists vals. split; [reflexivity|]. split; [|exact K5].
  unfold load_table. rewrite parse_write. cbn [filter]. rewrite Hv. cbn [map]. rewrite (nl_ids names Hnames).
  assert (E : map (map (replace2 CR LF [LF])) (filter visible recs) = recs).
  { clear K1 K4. induction K2 as [|r rs H Hr IH]; [reflexivity|]. inversion K3 as [|? ? V V']; subst. cbn [filter]. rewrite V. cbn [map]. rewrite (nl_ids r H), IH by exact V'. reflexivity. }
  rewrite E, Ht, K4. reflexivity.
Qed.
End Tables.

(** ** What a column holds is determined *)
Lemma Z_dec_inj a b : Z_dec a = Z_dec b -> a = b.
Proof.
  assert (H : forall n m, N_dec n = B"-" ++ N_dec m -> False).
  { intros n m E. pose proof (N_dec_digits n) as F. rewrite E in F. inversion F as [|? ? D]; subst. discriminate D. }
  destruct a as [|p|p], b as [|q|q]; unfold Z_dec; intros E; try reflexivity;
    try (exfalso; exact (H _ _ E)); try (exfalso; symmetry in E; exact (H _ _ E)).
  - apply N_dec_inj in E. lia.
  - apply N_dec_inj in E. lia.
  - apply N_dec_inj in E. lia.
  - injection E as E. apply N_dec_inj in E. lia.
Qed.
Lemma holds_determined fmt k r v w : (forall a b, fmt a = fmt b -> a = b) -> holds fmt k r v -> holds fmt k r w -> same_value v w.
Proof.
  intros Hf H. destruct H as [k|k b|b|b|z|s|b|b a P]; intros G; inversion G as [k'|k' b'|b' E1 E2|b'|z' E1 E2|s' E1 E2|b'|b' a' P' E1 E2]; subst; cbn [same_value]; try reflexivity; try congruence.
  - destruct b, b'; try reflexivity; discriminate.
  - apply (f_equal DInt). apply Z_dec_inj. congruence.
  - apply (f_equal (fun x => DTime x 0)). apply Hf. congruence.
Qed.
