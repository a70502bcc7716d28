(** C119: a column that fills itself is dumped as one that fills itself in the same way. *)
From Verif Require Import GoStr GoStrFacts ModelSq SpecSql SpecInsert SpecTokens SpecDdl ModelCatalog ModelDiffSql ModelDdlText SpecDdlText DdlTokens DdlColumns ModelParser SpecDefault DefaultFacts ModelFilling SpecFilling FillingFacts.
From Coq Require Import ZifyBool ZifyNat.

(** What is read for a column of a live database and written as its definition is a definition of a column
    that fills itself in the same way. *)
Definition C119_claim (e : engine) (timed hidden : bool) (coll : bytes) (c : column) (f : filling) : Prop :=
  exists ts m,
    tokens (spoken e) (write_column (spoken e) coll (read_row (shown e timed hidden (col_default c) f) c) false no_reference) = Some ts
    /\ read_column (spoken e) ts = Some (m, []) /\ fills (spoken e) m f.
Definition C119_full : Prop := forall e timed hidden coll c f,
  possible e f -> ordinary (spoken e) timed f c -> C119_claim e timed hidden coll c f.

Lemma claim_said e t h coll c f : C119_claim e t h coll c f <->
  exists m, said (spoken e) coll (read_row (shown e t h (col_default c) f) c) m /\ fills (spoken e) m f.
Proof.
  split.
  - intros (ts & m & T & R & F). exists m. split; [exists ts; auto|exact F].
  - intros (m & (ts & T & R) & F). exists ts, m. auto.
Qed.
Lemma claim_meant e t h coll c f : possible e f -> ordinary (spoken e) t f c -> computed_ok e h c f ->
  (C119_claim e t h coll c f <-> fills (spoken e) (column_meant (spoken e) coll false no_reference (read_row (shown e t h (col_default c) f) c)) f).
Proof.
  intros P O K. pose proof (writable_said _ coll _ (spoken_known e) (read_writable e t h f c coll P O K)) as S. rewrite claim_said. split.
  - intros (m & S' & F). rewrite (said_one _ _ _ _ _ S S'). exact F.
  - intros F. eexists. split; [exact S|exact F].
Qed.
Ltac fields := cbn [column_meant cd_auto cd_identity cd_generated cd_onupdate generated_of shown spoken read_row with_autoincrement with_onupdate with_identity with_default with_expression col_autoincrement col_onupdate col_identity col_expr col_stored].
Lemma meant_fills e t h coll c f : possible e f -> ordinary (spoken e) t f c -> computed_ok e h c f ->
  (fills (spoken e) (column_meant (spoken e) coll false no_reference (read_row (shown e t h (col_default c) f) c)) f <-> kept e t h c f).
Proof.
  intros P (_ & _ & _ & _ & _ & Om) K. destruct f as [| |a s n|x st|n].
  - cbn [kept]. split; [auto|]. intros _. destruct e; cbn [fills]; fields; rewrite ?extra_auto, ?extra_stamp, ?andb_false_r by (reflexivity || discriminate); auto.
  - destruct Om as (_ & ->). cbn [possible] in P. destruct e; try discriminate P; cbn [fills kept]; fields; rewrite extra_auto, extra_stamp by reflexivity; destruct h; cbn; intuition congruence.
  - destruct P as (Nz & P). destruct e; try (destruct P as [P|(P & _)]; discriminate P).
    + cbn [fills kept]. fields. split.
      * intros (_ & _ & _ & i & I & _ & X). right. destruct a; vm_compute in I; injection I as <-; vm_compute in X; injection X as <- <-; auto.
      * intros [D|(-> & ->)]; [discriminate D|]. destruct a; vm_compute; repeat split; eexists; repeat split.
    + destruct P as [P|(_ & ->)]; [discriminate P|]. cbn [fills kept]. fields. split; [left; reflexivity|]. intros _. rewrite identity_some, !andb_false_r. cbn [andb]. repeat split.
      eexists. split; [reflexivity|]. split; [reflexivity|]. apply options_read.
  - destruct Om as (_ & ->). cbn [possible] in P. destruct e; cbn [fills kept computed_ok spoken] in *; fields.
    1,2,3: rewrite unescape_escaped, extra_auto, extra_stamp, extra_stored by (reflexivity || congruence);
      (assert (bracketed MySQL x /\ col_notnull c = false) as (Kb & Kn) by (destruct K as [K|(_ & (x' & E & Kb) & Kn)]; [tauto|injection E as <-; auto]));

      (destruct x as [|y x]; [destruct (fits_nonempty _ _ P eq_refl)|]); rewrite andb_false_l;
      (split; [intros (_ & _ & _ & ts & E & _); injection E as _ E; split; [exact Kb|]; split; [exact Kn|]; intros ->; destruct h; [discriminate E|reflexivity]
              |intros (_ & _ & H); repeat split; eexists; split; [|apply bare_inner]; do 2 f_equal; destruct st; [rewrite (H eq_refl)|]; reflexivity]).
    + assert (bracketed Postgres x /\ st = true) as (Kb & ->) by (destruct K as [K|(K & _)]; [tauto|discriminate K]). split; [auto|]. intros _.
      unfold generated_of. fields. change (beqb (B"s") (B"s")) with true. cbn iota. destruct x as [|y x]; [destruct (fits_nonempty _ _ P eq_refl)|]. repeat split. eexists. split; [reflexivity|apply bare_inner].
    + split; [auto|]. intros _. unfold generated_of. fields. repeat split. eexists. split; [reflexivity|]. apply wrapped_bracketed. exact P.
  - cbn [possible] in P. destruct e; try discriminate P; cbn [fills kept]; fields; rewrite extra_auto, extra_stamp by (reflexivity || discriminate); unfold generated_of; fields.
    1,3: split; [intros (_ & _ & _ & X & _); discriminate X|intros (X & _); discriminate X].
    split.
    + intros (_ & _ & _ & X & ->). rewrite andb_true_r in X. apply andb_prop in X as (X & _). apply andb_prop in X as (-> & X). destruct h; [discriminate X|]. auto.
    + intros (_ & -> & -> & ->). repeat split.
Qed.

(** Missing: ON UPDATE CURRENT_TIMESTAMP except in MySQL 8 together with DEFAULT CURRENT_TIMESTAMP and without digits, numbers of
    Postgres that do not go 1, 2, 3, ..; expressions of Postgres and MySQL that begin and end with brackets that do
    not belong together; columns of Postgres that are computed when they are read; MySQL: computed columns that are NOT NULL, and
    INVISIBLE counters and stored columns. *)
Theorem C119_partial : forall e timed hidden coll c f,
  possible e f -> ordinary (spoken e) timed f c -> kept e timed hidden c f -> C119_claim e timed hidden coll c f.
Proof.
  intros e t h coll c f P O K. assert (computed_ok e h c f) as C. { destruct f; try exact I. left. exact K. }
  apply claim_meant; [exact P|exact O|exact C|]. apply meant_fills; assumption.
Qed.
(** Nothing else is kept, as far as it is not about expressions. *)
Theorem C119_exact : forall e timed hidden coll c f,
  possible e f -> ordinary (spoken e) timed f c -> (forall x stored, f = Computed x stored -> e = Ms) ->
  (C119_claim e timed hidden coll c f <-> kept e timed hidden c f).
Proof.
  intros e t h coll c f P O X. assert (computed_ok e h c f) as C. { destruct f as [| | |x st|]; try exact I. rewrite (X x st eq_refl). left. exact I. }
  rewrite claim_meant by assumption. apply meant_fills; assumption.
Qed.
(** No column is taken for one that fills itself otherwise than it does. *)
Theorem C119_nothing_added : forall e timed hidden dflt c f, possible e f ->
  (timed = true -> f = Nothing \/ exists n, f = Stamped n) ->
  let c' := read_row (shown e timed hidden dflt f) c in
  (col_autoincrement c' = true -> f = Counter)
  /\ (col_onupdate c' = true -> f = Stamped 0)
  /\ (col_identity c' <> [] -> exists always s n, f = Numbered always s n)
  /\ (col_expr c' <> [] -> exists x stored, f = Computed x stored)
  /\ (col_stored c' = true -> exists x, f = Computed x true).
Proof.
  intros e t h dflt c f P T. assert (T1 : f = Counter -> t = false) by (intros ->; destruct t; [destruct (T eq_refl) as [D|(n & D)]; discriminate D|reflexivity]).
  assert (T2 : forall x st, f = Computed x st -> t = false) by (intros x st ->; destruct t; [destruct (T eq_refl) as [D|(n & D)]; discriminate D|reflexivity]).
  destruct e; cbn zeta; fields; rewrite ?extra_auto, ?extra_stamp, ?extra_stored by (reflexivity || assumption);
    destruct f as [| |a s n|x st|n]; cbn; repeat split; try congruence; try discriminate; intros H; try (destruct st; try discriminate H); eauto.
  apply andb_prop in H as (_ & H). f_equal. lia.
Qed.

(** ** Counterexamples *)
Definition sample (n ty : bytes) (notnull : bool) (dflt : bytes) : column :=
  Column [] [] n ty [] [] [] [] false notnull false false false [] dflt false false [] false [] false.
Definition wrong_ (e : engine) (timed hidden : bool) (c : column) (f : filling) : Prop :=
  possible e f /\ ordinary (spoken e) timed f c /\ forall coll, ~ C119_claim e timed hidden coll c f.
Ltac solve_fits := eexists; split; [vm_compute; reflexivity|split; [discriminate|reflexivity]].
Ltac solve_ordinary := split; [split; [vm_compute; intuition discriminate|intros (a & x & b & E); apply (f_equal (@List.length ascii)) in E; rewrite app_length in E; cbn in E; lia]|];
  split; [split; [solve_fits|split; [reflexivity|right; reflexivity]]|];
  split; [first [left; reflexivity|right; split; reflexivity]|]; split; [reflexivity|];
  split; [first [intros H; exfalso; apply H; reflexivity|intros _; eexists; eexists; split; [vm_compute; reflexivity|split; reflexivity]]|]; first [exact I|split; reflexivity].
(** MySQL 8: "DATETIME NULL ON UPDATE CURRENT_TIMESTAMP" loses its ON UPDATE because it has no default, and DATETIME(6) because of its digits;
    MySQL 5.7 and MariaDB lose all of them. *)
Theorem C119_refuted_stamps :
  wrong_ MySQL8 false false (sample (B"u") (B"datetime") false []) (Stamped 0)
  /\ wrong_ MySQL8 true false (sample (B"u") (B"datetime(6)") false (B"(now(6))")) (Stamped 6)
  /\ wrong_ MySQL5 true false (sample (B"u") (B"datetime") false (B"CURRENT_TIMESTAMP")) (Stamped 0)
  /\ wrong_ Maria true false (sample (B"u") (B"datetime") false (B"CURRENT_TIMESTAMP")) (Stamped 0).
Proof.
  repeat match goal with |- _ /\ _ => split | |- wrong_ _ _ _ _ _ => unfold wrong_ | |- possible _ _ => reflexivity | |- ordinary _ _ _ _ => solve_ordinary | _ => idtac end.
  all: try (intros coll; rewrite C119_exact; [|reflexivity|solve_ordinary|discriminate]; intros (A & B' & C & D); discriminate).
Qed.
(** Postgres: an identity that starts with 100 starts with 1 again. *)
Theorem C119_refuted_numbers : wrong_ Pg false false (sample (B"a") (B"bigint") true []) (Numbered true 100 1).
Proof.
  split; [split; [discriminate|left; reflexivity]|]. split; [solve_ordinary|]. intros coll. rewrite C119_exact; [|split; [discriminate|left; reflexivity]|solve_ordinary|discriminate].
  intros [X|(X & _)]; discriminate X.
Qed.
(** MySQL: an invisible AUTO_INCREMENT column becomes an ordinary one. *)
Theorem C119_refuted_invisible : wrong_ MySQL8 false true (sample (B"a") (B"bigint") true []) Counter.
Proof. split; [reflexivity|]. split; [solve_ordinary|]. intros coll. rewrite C119_exact; [|reflexivity|solve_ordinary|discriminate]. discriminate. Qed.
(** Definitions that are refused: [AS (a + 1) * (b + 2)] in Postgres, and NOT NULL before AS in MySQL.  A column of Postgres that is computed when it
    is read becomes one with a default. *)
Ltac not_said := let ts := fresh in let m := fresh in let T := fresh "T" in let R := fresh "R" in let F := fresh "F" in
  intros ? (ts & m & T & R & F); vm_compute in T; injection T as <-; vm_compute in R; first [discriminate R|injection R as <-; destruct F as (_ & _ & _ & ? & F & _); discriminate F].
Theorem C119_refuted_expressions :
  wrong_ Pg false false (sample (B"p") (B"integer") false []) (Computed (B"(a + 1) * (b + 2)") true)
  /\ wrong_ Pg false false (sample (B"p") (B"integer") false []) (Computed (B"a + 1") false)
  /\ wrong_ MySQL8 false false (sample (B"p") (B"int") true []) (Computed (B"(a + 1)") true).
Proof.
  split; [|split]; (split; [cbn [possible spoken]; solve_fits|split; [solve_ordinary|not_said]]).
Qed.
Theorem C119_refuted : ~ C119_full.
Proof. intros H. destruct C119_refuted_numbers as (P & O & W). apply (W []). apply H; assumption. Qed.

(** ** Examples *)
Definition dumped (e : engine) (timed hidden : bool) (c : column) (f : filling) : bytes :=
  write_column (spoken e) [] (read_row (shown e timed hidden (col_default c) f) c) false no_reference.
Example C119_example :
  dumped MySQL8 true false (sample (B"u") (B"timestamp") true (B"CURRENT_TIMESTAMP")) (Stamped 0)
    = B"u TIMESTAMP NOT NULL DEFAULT CURRENT_TIMESTAMP ON UPDATE CURRENT_TIMESTAMP"
  /\ dumped MySQL8 false false (sample (B"a") (B"bigint") true []) Counter = B"a BIGINT AUTO_INCREMENT NOT NULL"
  /\ dumped Maria false false (sample (B"p") (B"varchar(9)") false []) (Computed (B"concat(a,'x')") true) = B"p VARCHAR(9) AS (concat(a,'x')) STORED"
  /\ dumped Pg false false (sample (B"a") (B"bigint") true []) (Numbered false 1 1) = B"a BIGINT NOT NULL GENERATED BY DEFAULT AS IDENTITY"
  /\ dumped Ms false false (sample (B"a") (B"bigint") true []) (Numbered true (-5) 10) = B"a BIGINT NOT NULL IDENTITY(-5, 10)"
  /\ dumped Ms false false (sample (B"p") (B"int") false []) (Computed (B"(a)+(1)") true) = B"p AS ((a)+(1)) PERSISTED"
  /\ dumped MySQL8 false false (sample (B"u") (B"datetime") false []) (Stamped 0) = B"u DATETIME"
  /\ dumped Pg false false (sample (B"p") (B"integer") false []) (Computed (B"(a + 1) * (b + 2)") true) = B"p INTEGER GENERATED ALWAYS AS (a + 1) * (b + 2) STORED".
Proof. vm_compute. repeat split. Qed.
Example C119_example_kept :
  (possible MySQL8 (Stamped 0) /\ ordinary MySQL true (Stamped 0) (sample (B"u") (B"timestamp") true (B"CURRENT_TIMESTAMP")) /\ kept MySQL8 true false (sample (B"u") (B"timestamp") true (B"CURRENT_TIMESTAMP")) (Stamped 0))
  /\ (possible Ms (Numbered true (-5) 10) /\ ordinary SQLServer false (Numbered true (-5) 10) (sample (B"a") (B"bigint") true []) /\ kept Ms false false (sample (B"a") (B"bigint") true []) (Numbered true (-5) 10))
  /\ (possible Pg (Computed (B"a + 1") true) /\ ordinary Postgres false (Computed (B"a + 1") true) (sample (B"p") (B"integer") true []) /\ kept Pg false false (sample (B"p") (B"integer") true []) (Computed (B"a + 1") true)).
Proof.
  split; [|split].
  - split; [reflexivity|]. split; [solve_ordinary|]. repeat split.
  - split; [split; [discriminate|right; split; reflexivity]|]. split; [solve_ordinary|]. left. reflexivity.
  - split; [cbn [possible spoken]; solve_fits|]. split; [solve_ordinary|]. split; [|reflexivity]. split; [solve_fits|reflexivity].
Qed.
Print Assumptions C119_partial.
Print Assumptions C119_exact.
Print Assumptions C119_nothing_added.
Print Assumptions C119_refuted.
Print Assumptions C119_refuted_stamps.
Print Assumptions C119_refuted_expressions.
