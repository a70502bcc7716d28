(** C79: table structs written as Go code are read back as written. *)
From Coq Require Import Lia.
From Verif Require Import GoStr GoStrFacts ModelCatalog ModelCache ModelDdl ModelModifier SpecModifier ModifierFacts ModelDiff ModelDiffSql
  ModelGoTag ModelStructs ModelParser SpecGo SpecStructs GoText StructsText DiffWitness.

(** The text written for structs is Go code, and the structs read from it, without any
    complaint, are those that were written. *)
Definition read_as_written (l : list table_struct) : Prop :=
  exists gs l', go_declarations (marshal_text l) = Some gs /\ visit_structs gs = Ok (l', []) /\ Forall2 same_struct l l'.

(** ** C79 *)
(** For every catalog whose structs could be written, so it is. *)
Definition C79_full : Prop := forall cat l, read_catalog cat = Ok l -> read_as_written l.

(** Proved for catalogs whose tables and columns have names of letters, digits, underscores
    and blanks, no digit in front, and whose texts have balanced braces and no backticks.
    Missing: the other catalogs, for which the claim does not hold. *)
Theorem C79_partial : forall cat l, writable cat -> read_catalog cat = Ok l -> read_as_written l.
Proof.
  intros cat l W E. pose proof (read_catalog_ok cat l W E) as H. destruct (text_read_back l H) as (A & V).
  exists (map go_struct_of l), (map read_back_struct l). split; [exact A|]. split; [exact V|]. apply read_back_same, H.
Qed.

(** A table "order-line": its struct would be called ORDER-LINE. *)
Definition dashed : catalog := one_schema Postgres (B"public") [a_table (B"public") (B"order-line") [a_column (B"id") (B"INT")] [] []].
Lemma dashed_not_go : exists l, read_catalog dashed = Ok l /\ go_declarations (marshal_text l) = None.
Proof. eexists. split; [vm_compute; reflexivity|vm_compute; reflexivity]. Qed.
Theorem C79_refuted : ~ C79_full.
Proof.
  intro H. destruct dashed_not_go as (l & E & N). destruct (H dashed l E) as (gs & l' & G & _). congruence.
Qed.

(** Another way in which it fails: a backtick in a type ends the raw string that is the tag. *)
Definition ticked : catalog := one_schema MySQL (B"db") [a_table (B"db") (B"t") [a_column (B"id") (B"ENUM('`')")] [] []].
Lemma ticked_not_go : exists l, read_catalog ticked = Ok l /\ go_declarations (marshal_text l) = None.
Proof. eexists. split; [vm_compute; reflexivity|vm_compute; reflexivity]. Qed.

(** ** A catalog that meets the hypotheses *)
Definition a_film : table :=
  a_table (B"public") (B"film")
    [required (B"film_id") (B"INT") []; a_column (B"title") (B"VARCHAR(80)");
     required (B"made") (B"TIMESTAMPTZ") (B"CURRENT_TIMESTAMP"); required (B"Tags Of It") (B"TEXT[]") (B"'{}'")]
    [a_key (B"public") (B"film") (B"film_film_id_pkey") PRIMARY_KEY [B"film_id"];
     a_key (B"public") (B"film") (B"film_title_made_key") UNIQUE [B"title"; B"made"]]
    [an_index (B"public") (B"film") (B"film_made_idx") [B"made"]].
Definition film_copy : table :=
  a_table (B"stock") (B"film copy")
    [required (B"id") (B"INT") []; a_column (B"film_id") (B"INT")]
    [a_fkey (B"stock") (B"film copy") (B"film_copy_film_id_fkey") [B"film_id"] (B"public") (B"film") [B"film_id"];
     a_key (B"stock") (B"film copy") (B"film_copy_id_film_id_pkey") PRIMARY_KEY [B"id"; B"film_id"]]
    [an_index (B"stock") (B"film copy") (B"film_copy_film_id_idx") [B"film_id"]].
Definition films : catalog :=
  a_catalog Postgres (B"public") [Schema (B"public") [a_film] false; Schema (B"stock") [film_copy] false].

(** A test that implies the hypotheses. *)
Definition is_go_word (n : bytes) : bool :=
  match n with c :: _ => negb (is_digit c) | [] => false end
  && forallb (fun c => is_letter c || is_digit c || ceqb c underscore || ceqb c SPACE) n.
Definition is_quiet (s : bytes) : bool := negb (existsb (fun c => existsb (ceqb c) (B"{}`")) s).
Definition is_column_ok (c : column) : bool :=
  is_go_word (col_name c) && is_quiet (col_type c) && is_quiet (col_domain c) && is_quiet (col_collation c)
  && (is_quiet (col_default c) || beqb (col_default c) (B"'{}'")).
Definition is_constraint_ok (c : constraint) : bool :=
  forallb is_quiet (con_columns c) && negb (is_empty (con_reftable c) && beqb (con_type c) FOREIGN_KEY)
  && forallb is_quiet [con_refschema c; con_reftable c; con_update c; con_delete c] && forallb is_quiet (con_refcolumns c).
Definition is_table_ok (t : table) : bool :=
  is_go_word (tb_name t) && is_quiet (tb_schema t)
  && forallb is_column_ok (tb_columns t)
  && existsb (fun c => negb (col_ignore c) && negb (beqb (col_name c) (B"_")) && negb (beqb (col_name c) (B" "))) (tb_columns t)
  && forallb is_constraint_ok (tb_constraints t)
  && forallb (fun x => forallb is_quiet (ix_columns x) && is_quiet (ix_type x)) (tb_indexes t).
Lemma go_word_of : forall n, is_go_word n = true -> go_word n.
Proof.
  intros n H. apply andb_true_iff in H as (H & A).
  split; [destruct n as [|c n]; [discriminate|]; exists c, n; split; [reflexivity|]; destruct (is_digit c); [discriminate|reflexivity]|].
  rewrite forallb_forall in A. intros c Hc. specialize (A c Hc). destruct (is_letter c); [auto|]. destruct (is_digit c); [auto|].
  destruct (ceqb_spec c underscore); [auto|]. destruct (ceqb_spec c SPACE); [auto|discriminate].
Qed.
Lemma quiet_of : forall s, is_quiet s = true -> quiet s.
Proof. intros s H. apply quiet_lit, negb_true_iff, H. Qed.
Lemma quiets_of : forall l, forallb is_quiet l = true -> Forall quiet l.
Proof. intros l H. apply Forall_forall. rewrite forallb_forall in H. intros s Hs. apply quiet_of, H, Hs. Qed.
Lemma column_ok_of : forall c, is_column_ok c = true -> column_ok c.
Proof.
  intros c H. unfold is_column_ok in H. do 4 (apply andb_true_iff in H as (H & ?)).
  split; [apply go_word_of; assumption|]. do 3 (split; [apply quiet_value, quiet_of; assumption|]).
  intros v E. apply orb_true_iff in H0 as [Q|Q].
  - apply quiet_of in Q as (A & A' & A''). destruct E as [<-|E]; apply quiet_value; [repeat split; assumption|].
    rewrite E, !in_app_iff in A, A', A''. repeat split; tauto.
  - apply beqb_eq in Q. rewrite Q in E. destruct E as [<-|E]; [|discriminate].
    split; [|right; discriminate]. apply bal_char; [discriminate|discriminate|]. apply (bal_braces [] (B"'")); [constructor|].
    apply bal_char; [discriminate|discriminate|constructor].
Qed.
Lemma constraint_ok_of : forall c, is_constraint_ok c = true -> constraint_ok c.
Proof.
  intros c H. unfold is_constraint_ok in H. do 3 (apply andb_true_iff in H as (H & ?)). apply quiets_of in H, H0, H1.
  split; [exact H|]. intro F. inversion H1 as [|? ? Q1 R1]; subst. inversion R1 as [|? ? Q2 R2]; subst. inversion R2 as [|? ? Q3 R3]; subst.
  inversion R3 as [|? ? Q4 R4]; subst. repeat (split; [assumption|]) || idtac. split; [|auto].
  intro X. rewrite X, F in H2. discriminate.
Qed.
Lemma table_ok_of : forall t, is_table_ok t = true -> table_ok t.
Proof.
  intros t H. unfold is_table_ok in H. do 5 (apply andb_true_iff in H as (H & ?)). split; [apply go_word_of; assumption|].
  split; [apply (quiet_of (tb_schema t)); assumption|]. rewrite forallb_forall in *. split; [intros c Hc _; apply column_ok_of; auto|].
  split.
  - apply existsb_exists in H2 as (c & Hc & E). do 2 (apply andb_true_iff in E as (E & ?)). exists c. split; [exact Hc|].
    split; [apply negb_true_iff, E|]. split; intro X; rewrite X in *; discriminate.
  - split; [intros c Hc _; apply constraint_ok_of; auto|]. intros x Hx _. specialize (H0 x Hx). apply andb_true_iff in H0 as (A & A').
    split; [apply quiets_of, A|apply quiet_value, quiet_of, A'].
Qed.
Lemma films_writable : writable films.
Proof.
  assert (H : forallb (fun s => forallb is_table_ok (sc_tables s)) (ct_schemas films) = true) by (vm_compute; reflexivity).
  intros s t Hs Ht. rewrite forallb_forall in H. specialize (H s Hs). rewrite forallb_forall in H. apply table_ok_of, H, Ht.
Qed.
Example C79_case : writable films /\ exists l, read_catalog films = Ok l /\ List.length l = 2 /\ read_as_written l.
Proof.
  split; [exact films_writable|]. destruct (read_catalog films) as [l| |] eqn:E; [|vm_compute in E; discriminate|vm_compute in E; discriminate].
  exists l. split; [reflexivity|]. split; [|eapply C79_partial; [exact films_writable|exact E]].
  apply (f_equal (fun r => match r with Ok l => List.length l | _ => 0 end)) in E. rewrite <- E. vm_compute. reflexivity.
Qed.
(** The text for the second table. *)
Definition film_copy_text : bytes :=
  match read_catalog films with Ok [_; s] => struct_text s | _ => [] end.
Example C79_text : film_copy_text =
  B"type FILM_COPY struct {" ++ [LF; TAB]
  ++ B"sq.TableStruct `sq:""stock.film copy"" ddl:""primarykey=id,film_id""`" ++ [LF; TAB]
  ++ B"ID sq.NumberField `ddl:""notnull""`" ++ [LF; TAB]
  ++ B"FILM_ID sq.NumberField `ddl:""references={film index}""`" ++ [LF] ++ B"}" ++ [LF].
Proof. vm_compute. reflexivity. Qed.

Print Assumptions C79_partial.
Print Assumptions C79_refuted.
