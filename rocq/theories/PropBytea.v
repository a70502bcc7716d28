(** Property C124: binary values. *)
From Coq Require Import Lia.
From Verif Require Import GoStr GoStrFacts ModelSq ModelDdl ModelCache ModelCsv ModelArray SpecArray ArrayFacts ModelBytea SpecBytea.

Lemma ok_inj {A} (a b : A) : Ok a = Ok b -> a = b. Proof. intros H. injection H. auto. Qed.
Lemma ceqb_iff a b : ceqb a b = true <-> a = b.
Proof. unfold ceqb. apply Ascii.eqb_eq. Qed.
Lemma from_hex_iff c n : from_hex c = Some n <-> nibble c n.
Proof.
  split.
  - destruct c as [[] [] [] [] [] [] [] []]; vm_compute; intros E; try discriminate E; injection E as <-; first [apply nibble_small; reflexivity|exact (nibble_capital 0 _ eq_refl)|exact (nibble_capital 1 _ eq_refl)|exact (nibble_capital 2 _ eq_refl)|exact (nibble_capital 3 _ eq_refl)|exact (nibble_capital 4 _ eq_refl)|exact (nibble_capital 5 _ eq_refl)].
  - intros [i c' E|i c' E].
    + do 16 (destruct i as [|i]; [injection E as <-; reflexivity|]). destruct i; discriminate E.
    + do 6 (destruct i as [|i]; [injection E as <-; reflexivity|]). destruct i; discriminate E.
Qed.
Lemma from_octal_iff c n : from_octal c = Some n <-> octal c n.
Proof.
  unfold octal. split.
  - destruct c as [[] [] [] [] [] [] [] []]; vm_compute; intros E; try discriminate E; injection E as <-; reflexivity.
  - intros E. do 8 (destruct n as [|n]; [injection E as <-; reflexivity|]). destruct n; discriminate E.
Qed.
Lemma two_steps (P : bytes -> Prop) : P [] -> (forall a, P [a]) -> (forall a b s, P s -> P (a :: b :: s)) -> forall s, P s.
Proof. intros H0 H1 H2 s. assert (H : P s /\ forall a, P (a :: s)); [|apply H]. induction s as [|c s (IH & IH')]; split; auto. Qed.
Lemma hex_decode_iff s : forall v, hex_decode s = Ok v <-> hex_text s v.
Proof.
  induction s as [|a|a b s IH] using two_steps; intros v.
  - cbn [hex_decode]. split; [intros E; apply ok_inj in E; subst; constructor|intros T; inversion T; reflexivity].
  - split; [discriminate|intros T; inversion T].
  - cbn [hex_decode]. split.
    + destruct (from_hex a) as [x|] eqn:X; [|discriminate]. destruct (from_hex b) as [y|] eqn:Y; [|discriminate]. destruct (hex_decode s) as [w| |] eqn:W; try discriminate. cbn [bindr]. intros E. apply ok_inj in E. subst v.
      apply hex_more; [apply from_hex_iff, X|apply from_hex_iff, Y|apply IH; reflexivity].
    + intros T. inversion T as [|a' b' x y t w X Y T']; subst. apply from_hex_iff in X, Y. rewrite X, Y. apply IH in T'. rewrite T'. reflexivity.
Qed.
Lemma octal_byte_iff a b c r : octal_byte a b c = Ok r <-> exists x y z, octal a x /\ octal b y /\ octal c z /\ 64 * x + 8 * y + z < 256 /\ r = ascii_of_nat (64 * x + 8 * y + z).
Proof.
  unfold octal_byte. split.
  - destruct (from_octal a) as [x|] eqn:X; [|discriminate]. destruct (from_octal b) as [y|] eqn:Y; [|discriminate]. destruct (from_octal c) as [z|] eqn:Z; [|discriminate]. cbv zeta. destruct (Nat.leb_spec (64 * x + 8 * y + z) 255) as [L|L]; [|discriminate].
    intros E. apply ok_inj in E. exists x, y, z. rewrite <- !from_octal_iff. repeat split; auto. lia.
  - intros (x & y & z & X & Y & Z & L & ->). apply from_octal_iff in X, Y, Z. rewrite X, Y, Z. cbv zeta. destruct (Nat.leb_spec (64 * x + 8 * y + z) 255); [reflexivity|lia].
Qed.
Lemma unescape_sound n : forall s v, List.length s <= n -> unescape s = Ok v -> escape_text s v.
Proof.
  induction n as [|n IH]; intros s v L E.
  - destruct s; [apply ok_inj in E; subst; constructor|cbn in L; lia].
  - destruct s as [|c r]; [apply ok_inj in E; subst; constructor|]. cbn [unescape] in E. cbn [List.length] in L. destruct (ceqb c backslash) eqn:C.
    + apply ceqb_iff in C. subst c. destruct r as [|a r1]; [discriminate E|]. cbn [List.length] in L. destruct (ceqb a backslash) eqn:A.
      * apply ceqb_iff in A. subst a. destruct (unescape r1) as [w| |] eqn:W; try discriminate E. apply ok_inj in E. subst v. apply escape_double, IH; [lia|exact W].
      * destruct r1 as [|b [|d r2]]; try discriminate E. destruct (octal_byte a b d) as [x| |] eqn:O; try discriminate E. cbn [bindr] in E. destruct (unescape r2) as [w| |] eqn:W; try discriminate E. apply ok_inj in E. subst v.
        apply octal_byte_iff in O. destruct O as (x1 & x2 & x3 & X1 & X2 & X3 & R & ->). apply escape_octal; auto. apply IH; [cbn [List.length] in L; lia|exact W].
    + destruct (unescape r) as [w| |] eqn:W; try discriminate E. apply ok_inj in E. subst v. apply escape_plain; [intros ->; discriminate C|apply IH; [lia|exact W]].
Qed.
Lemma octal_no_backslash a x : octal a x -> ceqb a backslash = false.
Proof. intros O. destruct (ceqb a backslash) eqn:E; [|reflexivity]. apply ceqb_iff in E. subst a. apply from_octal_iff in O. discriminate O. Qed.
Lemma unescape_complete s v : escape_text s v -> unescape s = Ok v.
Proof.
  induction 1 as [|c t v N T IH|t v T IH|a b c x y z t v A Hb C L T IH]; [reflexivity| | |].
  - cbn [unescape]. destruct (ceqb c backslash) eqn:E; [apply ceqb_iff in E; contradiction|]. rewrite IH. reflexivity.
  - cbn [unescape]. change (ceqb "\" backslash) with true. cbv iota. rewrite IH. reflexivity.
  - cbn [unescape]. change (ceqb "\" backslash) with true. cbv iota. rewrite (octal_no_backslash a x A). rewrite (proj2 (octal_byte_iff a b c _) (ex_intro _ x (ex_intro _ y (ex_intro _ z (conj A (conj Hb (conj C (conj L eq_refl)))))))). rewrite IH. reflexivity.
Qed.
Lemma escape_no_x t v : escape_text t v -> strip_prefix (B"\x") t = None.
Proof.
  intros T. destruct (strip_prefix (B"\x") t) as [r|] eqn:E; [|reflexivity]. exfalso. destruct t as [|c t]; [discriminate E|]. cbn [strip_prefix] in E. change (B"\x") with ["\"; "x"]%char in E. cbn [strip_prefix] in E.
  inversion T as [|? ? ? N|? ? ?|a b d x y z t' w A]; subst.
  - destruct (ceqb "\" c) eqn:C; [apply ceqb_iff in C; congruence|discriminate E].
  - discriminate E.
  - change (ceqb "\" "\") with true in E. cbv iota in E. destruct (ceqb "x" a) eqn:X; [|discriminate E]. apply ceqb_iff in X. subst a. apply from_octal_iff in A. discriminate A.
Qed.
(** ** C124 *)
(** What is read: exactly the two kinds of texts. *)
Theorem C124_read : forall s v, parse_bytea s = Ok v <-> bytea_text s v.
Proof.
  intros s v. unfold parse_bytea. split.
  - destruct (strip_prefix (B"\x") s) as [t|] eqn:E; intros P.
    + apply strip_prefix_Some in E. subst s. apply bytea_hex, hex_decode_iff, P.
    + apply bytea_escape. eapply unescape_sound; [apply Nat.le_refl|exact P].
  - intros [t w T|t w T].
    + change (strip_prefix (B"\x") (B"\x" ++ t)) with (Some t). apply hex_decode_iff, T.
    + rewrite (escape_no_x t w T). apply unescape_complete, T.
Qed.
Print Assumptions C124_read.
Lemma byte_text c : hex_text (hex_byte c) [c].
Proof. apply hex_decode_iff. destruct c as [[] [] [] [] [] [] [] []]; reflexivity. Qed.
Lemma byte_escape c : escape_text (escape_byte c) [c].
Proof. apply (unescape_sound (List.length (escape_byte c))); [apply Nat.le_refl|]. destruct c as [[] [] [] [] [] [] [] []]; reflexivity. Qed.
Lemma hex_app s v t w : hex_text s v -> hex_text t w -> hex_text (s ++ t) (v ++ w).
Proof. intros S T. induction S; [exact T|]. cbn [app]. constructor; assumption. Qed.
Lemma escape_app s v t w : escape_text s v -> escape_text t w -> escape_text (s ++ t) (v ++ w).
Proof. intros S T. induction S; [exact T| | |]; cbn [app]; constructor; assumption. Qed.
Lemma hex_all v : hex_text (hex_encode v) v.
Proof. induction v as [|c v IH]; [constructor|]. unfold hex_encode in *. cbn [flat_map]. exact (hex_app _ [c] _ v (byte_text c) IH). Qed.
Lemma escape_all v : escape_text (flat_map escape_byte v) v.
Proof. induction v as [|c v IH]; [constructor|]. cbn [flat_map]. exact (escape_app _ [c] _ v (byte_escape c) IH). Qed.
(** What is written is one of the texts of the value, and is read as that value; before version 9.0 without bytes outside of printable ASCII. *)
Theorem C124_write : forall version v, bytea_text (encode_bytea version v) v /\ parse_bytea (encode_bytea version v) = Ok v
  /\ forall c, In c (encode_bytea version v) -> 32 <= cn c <= 126.
Proof.
  intros version v. assert (T : bytea_text (encode_bytea version v) v). { unfold encode_bytea. destruct (90000 <=? version)%Z; [apply bytea_hex, hex_all|apply bytea_escape, escape_all]. }
  split; [exact T|]. split; [apply C124_read, T|]. intros c I. unfold encode_bytea in I. destruct (90000 <=? version)%Z.
  - apply in_app_or in I. destruct I as [I|I]; [cbn in I; destruct I as [<-|[<-|[]]]; cbv; lia|]. unfold hex_encode in I. apply in_flat_map in I. destruct I as (b & _ & I).
    assert (H : forallb (fun c => (32 <=? cn c) && (cn c <=? 126)) (hex_byte b) = true) by (destruct b as [[] [] [] [] [] [] [] []]; reflexivity).
    rewrite forallb_forall in H. specialize (H c I). apply andb_true_iff in H. destruct H as (H1 & H2). apply Nat.leb_le in H1, H2. auto.
  - apply in_flat_map in I. destruct I as (b & _ & I).
    assert (H : forallb (fun c => (32 <=? cn c) && (cn c <=? 126)) (escape_byte b) = true) by (destruct b as [[] [] [] [] [] [] [] []]; reflexivity).
    rewrite forallb_forall in H. specialize (H c I). apply andb_true_iff in H. destruct H as (H1 & H2). apply Nat.leb_le in H1, H2. auto.
Qed.
Print Assumptions C124_write.

(** ** Arrays *)
(** The texts that Postgres writes for arrays of binary values are read. *)
Lemma scan_elements l vs : binary_elements l vs -> Forall flat_value l /\ each scan_bytea (map elem_of l) = Ok vs.
Proof.
  induction 1 as [|e v l vs T _ (F & E)]; [split; [constructor|reflexivity]|]. split; [constructor; [exact Logic.I|exact F]|]. cbn [map each elem_of scan_bytea]. apply C124_read in T. unfold scan_bytea at 1. rewrite T. cbn [bindr]. rewrite E. reflexivity.
Qed.
Theorem C124_array_read : forall l vs s, binary_elements l vs -> written (Nested l) s -> bytea_array_scan s = Ok vs.
Proof. intros l vs s E W. destruct (scan_elements l vs E) as (F & X). unfold bytea_array_scan. rewrite (scan_written l s W F). exact X. Qed.
Print Assumptions C124_array_read.
Lemma hex_unescaped v : flat_map escaped (hex_encode v) = hex_encode v.
Proof.
  induction v as [|c v IH]; [reflexivity|]. unfold hex_encode in *. cbn [flat_map]. rewrite flat_map_app, IH. f_equal. destruct c as [[] [] [] [] [] [] [] []]; reflexivity.
Qed.
Definition text_of (v : bytes) : bytes := B"""" ++ flat_map escaped (B"\x" ++ hex_encode v) ++ B"""".
Lemma element_text v : bytea_element v = B"," ++ text_of v.
Proof. unfold bytea_element, text_of. rewrite flat_map_app, hex_unescaped. reflexivity. Qed.
Definition element_of (v : bytes) : pg_value := Element (B"\x" ++ hex_encode v).
Lemma elements_join v l : flat_map bytea_element (v :: l) = B"," ++ join (B",") (map text_of (v :: l)).
Proof.
  revert v. induction l as [|w l IH]; intros v.
  - cbn [flat_map map join]. rewrite app_nil_r. apply element_text.
  - change (flat_map bytea_element (v :: w :: l)) with (bytea_element v ++ flat_map bytea_element (w :: l)). rewrite IH, element_text. change (map text_of (v :: w :: l)) with (text_of v :: map text_of (w :: l)). rewrite join_cons by discriminate. rewrite <- !app_assoc. reflexivity.
Qed.
(** What is written for a list of values is an array in Postgres with a text of each, and is read as the same list. *)
Theorem C124_array : forall l, (exists es, binary_elements es l /\ written (Nested es) (bytea_array_value l)) /\ bytea_array_scan (bytea_array_value l) = Ok l.
Proof.
  intros l. assert (X : exists es, binary_elements es l /\ written (Nested es) (bytea_array_value l)).
  { exists (map element_of l). split.
    - induction l as [|v l IH]; constructor; [apply bytea_hex, hex_all|exact IH].
    - assert (E : bytea_array_value l = B"{" ++ join (B",") (map text_of l) ++ B"}"). { destruct l as [|v l]; [reflexivity|]. unfold bytea_array_value. rewrite elements_join. reflexivity. }
      rewrite E. constructor. clear E. induction l as [|v l IH]; constructor; [constructor|exact IH]. }
  split; [exact X|]. destruct X as (es & B & W). eapply C124_array_read; eassumption.
Qed.
Print Assumptions C124_array.
Definition some_bytes : bytes := [ascii_of_nat 0; "\"%char; "x"%char; ascii_of_nat 255; """"%char].
Example C124_example : encode_bytea 80400 some_bytes = B"\000\\x\377""" /\ encode_bytea 150000 some_bytes = B"\x005c78ff22" /\ parse_bytea (B"\x005C78Ff22") = Ok some_bytes
  /\ parse_bytea (B"\400") = Err /\ parse_bytea (B"\x0") = Err /\ parse_bytea (B"\12") = Err.
Proof. repeat split. Qed.
Example C124_array_example : bytea_array_value [some_bytes; []] = B"{""\\x005c78ff22"",""\\x""}" /\ binary_elements [Element (B"\x41"); Element (B"a\102")] [B"A"; B"aB"]
  /\ written (Nested [Element (B"\x41"); Element (B"a\102")]) (B"{""\\x41"",""a\\102""}").
Proof.
  split; [reflexivity|]. split; [do 2 (apply more_elements; [apply C124_read; reflexivity|]); constructor|].
  apply (written_nested [Element (B"\x41"); Element (B"a\102")] [B"""\\x41"""; B"""a\\102"""]). constructor; [apply (written_quoted (B"\x41"))|]. constructor; [apply (written_quoted (B"a\102"))|]. constructor.
Qed.
(** A missing element is read as an empty one. *)
Example C124_missing : bytea_array_scan (B"{NULL}") = Ok [[]].
Proof. reflexivity. Qed.
