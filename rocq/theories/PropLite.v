(** Property C39 for SQLite: applying a generated migration. *)
From Coq Require Import Lia.
From Verif Require Import GoStr GoStrFacts ModelCatalog ModelCache ModelDdl ModelDiff ModelDiffSql SpecDiff DiffLookup DiffFacts DiffSelf DiffSqlite DiffWitness SpecApply ApplyFacts SpecLite LiteFacts LitePair LiteRun LiteAll LiteWitness.

(** Between catalogs that meet the conditions of SpecLite.lite_suitable, a migration is generated,
    none of its statements is refused, and the database then has the tables, columns, keys and
    indexes of the destination.  There is a catalog that describes this database, and whichever
    catalog is read from it, nothing is generated any more.  Missing are the catalogs that are not
    suitable, see the refutations, and rows. *)
Theorem C39_sqlite_partial : forall flt prefix src dest x, lite_suitable src dest x -> lite_describes (tables_in src) x ->
  exists files, results SQLite flt prefix src dest true = Ok (files, [])
    /\ let ref := references (tables_in dest) in
       let y := lite_after ref (forward files) x in
       lite_runs ref (forward files) x /\ lite_agrees y (tables_in dest)
       /\ (exists c, lite_orderly c /\ lite_describes (tables_in c) y)
       /\ forall flt' prefix' src', lite_orderly src' -> lite_describes (tables_in src') y -> results SQLite flt' prefix' src' dest true = Ok ([], []).
Proof.
  intros flt prefix src dest x S D. destruct (lite_migration src dest x prefix flt S D) as (files & E & R & G). exists files. split; [exact E|]. intros ref y.
  pose proof S as (_ & Od & _). pose proof Od as (_ & Ud & Td). assert (A : lite_agrees y (tables_in dest)) by (apply good_agrees; [exact Ud|exact G]).
  split; [exact R|]. split; [exact A|]. split.
  - exists (read_catalog (tables_in dest) y). apply read_ok; assumption.
  - intros flt' prefix' src' O' D'. exact (lite_quiet src' dest y prefix' flt' O' Od D' A).
Qed.
Print Assumptions C39_sqlite_partial.
(** The hypotheses hold for two catalogs with changes of all kinds: tables are dropped, created,
    altered in place, copied and left alone. *)
Example C39_sqlite_example :
  let x := as_lite foreign_inline (tables_in lite_before) in
  lite_suitable lite_before lite_then x /\ lite_describes (tables_in lite_before) x
  /\ let l := stmts_of (results SQLite no_float (B"m") lite_before lite_then true) in
     In (QDropTable (bare (B"genre"))) l /\ In (QAddColumn (bare (B"actor")) (nth 2 (tb_columns lactor2) (new_column lactor2 [] []))) l
     /\ In (QDropColumn (bare (B"actor")) (B"genre_id")) l /\ In (QRename (bare (B"film_new")) (B"film")) l /\ List.length l = 16.
Proof.
  split; [exact lite_pair_suitable|]. split; [apply as_lite_described; apply nodupb_ok; vm_compute; reflexivity|].
  cbn zeta. set (l := stmts_of _). vm_compute in l. subst l. cbn [In nth tb_columns lactor2]. unfold bare. repeat split; try (repeat (first [left; reflexivity|right])); try reflexivity.
Qed.
(** The first migration of an empty database. *)
Example C39_sqlite_example_first : lite_suitable (a_catalog SQLite [] []) lite_then (fun _ => None)
  /\ List.length (stmts_of (results SQLite no_float (B"m") (a_catalog SQLite [] []) lite_then true)) = 7.
Proof.
  split; [|vm_compute; reflexivity]. split; [now_orderly|]. split; [exact lite_then_orderly|]. split; [exact lite_then_creatable|].
  split; [apply separateb_ok; vm_compute; reflexivity|]. split; [apply freeb_ok; vm_compute; reflexivity|]. intros s t [].
Qed.

(** ** Where the claim fails *)
(** A migration from [src] to [dest] is generated, but it is refused or has another result. *)
Definition lite_wrong (src dest : catalog) : Prop :=
  exists x files, lite_orderly src /\ lite_orderly dest /\ lite_describes (tables_in src) x
    /\ results SQLite no_float (B"m") src dest true = Ok (files, [])
    /\ ~ (lite_runs (references (tables_in dest)) (forward files) x
          /\ lite_agrees (lite_after (references (tables_in dest)) (forward files) x) (tables_in dest)).
Lemma lite_is_wrong : forall inline src dest l, lite_orderly src -> lite_orderly dest ->
  results SQLite no_float (B"m") src dest true = Ok (l, []) ->
  let x := as_lite inline (tables_in src) in
  ~ (lite_runs (references (tables_in dest)) (forward l) x /\ lite_agrees (lite_after (references (tables_in dest)) (forward l) x) (tables_in dest)) ->
  lite_wrong src dest.
Proof. intros inline src dest l Os Od E x N. exists x, l. split; [exact Os|]. split; [exact Od|]. split; [apply as_lite_described; apply Os|]. auto. Qed.
Definition tcol (n ty : bytes) : column := lite_col (B"t") n ty false [] false.
Definition just (cols : list column) (cons : list constraint) (ixs : list index) : catalog := lite_catalog [a_table [] (B"t") cols cons ixs].
Definition files_of (src dest : catalog) : list file := fst (got (results SQLite no_float (B"m") src dest true)).
Ltac is_wrong inl := eapply (lite_is_wrong inl); [now_orderly|now_orderly|vm_compute; reflexivity|cbn zeta].

(** A superfluous column stays. *)
Theorem C39_sqlite_column_refuted : exists src dest, lite_wrong src dest /\ lite_creatable (tables_in dest).
Proof.
  exists (just [tcol (B"x") (B"INT"); tcol (B"y") (B"INT")] [] []), (just [tcol (B"x") (B"INT")] [] []). split; [|now_creatable].
  is_wrong foreign_inline. intros (_ & _ & A). specialize (A _ _ (or_introl eq_refl) eq_refl). destruct A as (A & _). specialize (A (B"y")). vm_compute in A. destruct A as (_ & A). discriminate (A eq_refl).
Qed.
Print Assumptions C39_sqlite_column_refuted.
(** A type in lower case: the table is copied, and the database is described by the same catalog as
    before, so that the table is copied again each time. *)
Definition upper_x : table := a_table [] (B"t") [tcol (B"x") (B"INT")] [] [].
Definition only_t (lt : ltable) : ldatabase := fun n => if beqb n (B"t") then Some lt else None.
Theorem C39_sqlite_type_refuted : exists src dest x files, lite_orderly src /\ lite_orderly dest /\ lite_describes (tables_in src) x
  /\ results SQLite no_float (B"m") src dest true = Ok (files, []) /\ files <> []
  /\ let y := lite_after (references (tables_in dest)) (forward files) x in
     lite_runs (references (tables_in dest)) (forward files) x /\ lite_describes (tables_in src) y /\ ~ lite_agrees y (tables_in dest).
Proof.
  set (src := lite_catalog [upper_x]). set (dest := just [tcol (B"x") (B"int")] [] []).
  exists src, dest, (only_t (made_table upper_x)), (files_of src dest).
  assert (D : forall x ty, In ty [B"INT"; B"int"] -> x (B"t") = Some (made_table (a_table [] (B"t") [tcol (B"x") ty] [] [])) -> (forall n, n <> B"t" -> x n = None) -> lite_describes (tables_in src) x).
  { intros x ty T E O. split.
    - intro n. cbn [src tables_in lite_catalog one_schema a_catalog ct_schemas flat_map sc_tables app map tb_name upper_x a_table]. split.
      + intro Z. left. destruct (beqb_spec n (B"t")) as [->|N]; [reflexivity|]. rewrite (O n N) in Z. contradiction.
      + intros [<-|[]]. rewrite E. discriminate.
    - intros t lt [<-|[]] L. assert (lt = made_table (a_table [] (B"t") [tcol (B"x") ty] [] [])) as -> by (cbn [tb_name upper_x a_table] in L; congruence). split; [|split; [|split]].
      + intro n. cbn [made_table lt_columns]. change (created_columns (a_table [] (B"t") [tcol (B"x") ty] [] [])) with [tcol (B"x") ty]. unfold called. cbn [find upper_x a_table tb_columns].
        change (col_name (tcol (B"x") ty)) with (B"x"). change (col_name (tcol (B"x") (B"INT"))) with (B"x"). destruct (beqb (B"x") n); [|reflexivity]. each T; reflexivity.
      + intros k [].
      + intros c [].
      + reflexivity. }
  split; [now_orderly|]. split; [now_orderly|]. split.
  { apply (D _ (B"INT")); [left; reflexivity|reflexivity|]. intros n N. unfold only_t. destruct (beqb_spec n (B"t")) as [->|]; [contradiction|reflexivity]. }
  split; [vm_compute; reflexivity|]. split; [intro Z; vm_compute in Z; discriminate Z|]. intro y.
  assert (N0 : forall m lt, only_t (made_table upper_x) m = Some lt -> lt = made_table upper_x).
  { intros m lt E. unfold only_t in E. destruct (beqb m (B"t")); [congruence|discriminate]. }
  split; [|split].
  - set (l := forward _). vm_compute in l. subst l. cbn [lite_runs]. split; [exact Logic.I|]. split; [|split; [|split; [|split]]].
    + cbn [lite_allowed snd]. split; [split; [reflexivity|intros m lt E; rewrite (N0 m lt E); reflexivity]|]. split; [reflexivity|]. split; [discriminate|].
      split; [apply nodupb_ok; reflexivity|]. split; [cbn; lia|]. split; [intros c Hc; each Hc; discriminate|intros k []].
    + cbn [lite_allowed snd]. split; [discriminate|]. split; [apply nodupb_ok; reflexivity|].
      split; eexists; (split; [reflexivity|]; intros n Hn; each Hn; discriminate).
    + cbn [lite_allowed snd]. discriminate.
    + cbn [lite_allowed snd]. split; [discriminate|]. split.
      * split; [reflexivity|]. intros m lt E. cbn in E. unfold set_at in E. destruct (beqb m _); [discriminate|]. destruct (beqb m _); [injection E as <-; reflexivity|]. rewrite (N0 m lt E). reflexivity.
      * intros m lt k E Hk. cbn in E. unfold set_at in E. destruct (beqb m _); [discriminate|]. destruct (beqb m _); [injection E as <-; destruct Hk|]. rewrite (N0 m lt E) in Hk. destruct Hk.
    + split; exact Logic.I.
  - apply (D _ (B"int")); [right; left; reflexivity|reflexivity|]. intros n N. unfold y. set (l := forward _). vm_compute in l. subst l. cbn [lite_after fold_left lite_effect snd].
    change ["t"%char] with (B"t"). rewrite (set_at_other _ (B"t")) by exact N. destruct (beqb_spec n (B"t_new")) as [->|N']; [apply set_at_same|].
    rewrite (set_at_other _ _ _ n) by exact N'. rewrite (set_at_other _ _ _ n) by exact N. rewrite (set_at_other _ _ _ n) by exact N'.
    unfold only_t. destruct (beqb_spec n (B"t")); [contradiction|reflexivity].
  - intros (_ & A). specialize (A _ _ (or_introl eq_refl) eq_refl). destruct A as (_ & A & _). specialize (A (B"x") _ _ eq_refl eq_refl). destruct A as (A & _). discriminate A.
Qed.
Print Assumptions C39_sqlite_type_refuted.
(** A column that refers to another table is dropped, the foreign key is a table constraint, as
    CREATE TABLE writes it. *)
Definition other_u : table := a_table [] (B"u") [lite_col (B"u") (B"i") (B"INT") false [] false] [] [].
Definition other_v : table := a_table [] (B"v") [lite_col (B"v") (B"i") (B"INT") false [] false] [] [].
Theorem C39_sqlite_reference_refuted : exists src dest, lite_wrong src dest /\ lite_creatable (tables_in dest).
Proof.
  exists (lite_catalog [other_u; a_table [] (B"t") [tcol (B"x") (B"INT"); tcol (B"y") (B"INT")] [lite_fk (B"t") (B"y") (B"u") (B"i")] []]),
    (lite_catalog [other_u; a_table [] (B"t") [tcol (B"x") (B"INT")] [] []]). split; [|now_creatable].
  is_wrong (fun _ : constraint => false). intros (R & _). cbn [lite_runs forward flat_map fl_undo fl_stmts app lite_allowed snd] in R. destruct R as ((lt & E & _ & _ & K & _) & _).
  vm_compute in E. injection E as <-. destruct (K _ (or_introl eq_refl) (or_introl eq_refl)) as (_ & Z). discriminate Z.
Qed.
Print Assumptions C39_sqlite_reference_refuted.
(** A table that is copied has no column that it had before. *)
Theorem C39_sqlite_copy_refuted : exists src dest, lite_wrong src dest /\ lite_creatable (tables_in dest).
Proof.
  exists (just [tcol (B"x") (B"INT")] [] []), (just [tcol (B"y") (B"INT")] [DiffWitness.a_key [] (B"t") [] UNIQUE [B"y"]] []). split; [|now_creatable].
  is_wrong foreign_inline. intros (R & _). cbn [lite_runs forward flat_map fl_undo fl_stmts app lite_allowed snd] in R. destruct R as (_ & _ & (Z & _) & _). apply Z. reflexivity.
Qed.
Print Assumptions C39_sqlite_copy_refuted.
(** A foreign key refers to another table: nothing is generated. *)
Theorem C39_sqlite_target_refuted : exists src dest, lite_wrong src dest /\ lite_creatable (tables_in dest)
  /\ results SQLite no_float (B"m") src dest true = Ok ([], []).
Proof.
  exists (lite_catalog [other_u; other_v; a_table [] (B"t") [tcol (B"x") (B"INT")] [lite_fk (B"t") (B"x") (B"u") (B"i")] []]),
    (lite_catalog [other_u; other_v; a_table [] (B"t") [tcol (B"x") (B"INT")] [lite_fk (B"t") (B"x") (B"v") (B"i")] []]). split; [|split; [now_creatable|vm_compute; reflexivity]].
  is_wrong foreign_inline. intros (_ & _ & A). specialize (A _ _ (or_intror (or_intror (or_introl eq_refl))) eq_refl). destruct A as (_ & _ & A & _).
  destruct (A _ (or_introl eq_refl)) as (c & Hc & (_ & _ & Z & _)). each Hc. discriminate Z.
Qed.
Print Assumptions C39_sqlite_target_refuted.
(** New columns that SQLite does not add to a table with rows: without NULL and without default,
    with the current time as default, generated. *)
Definition added_x (c : column) : Prop := exists src dest, dest = just [tcol (B"x") (B"INT"); c] [] [] /\ lite_wrong src dest.
Definition generated_y : column := Column [] (B"t") (B"y") (B"INT") [] [] [] [] false false false false false [] [] false true (B"x + 1") false [] false.
Theorem C39_sqlite_added_refuted : added_x (lite_col (B"t") (B"y") (B"INT") true [] false)
  /\ added_x (lite_col (B"t") (B"y") (B"TEXT") false (B"CURRENT_TIMESTAMP") false) /\ added_x generated_y.
Proof.
  split; [|split]; exists (just [tcol (B"x") (B"INT")] [] []); eexists; (split; [reflexivity|]); is_wrong foreign_inline; intros (R & _);
    cbn [lite_runs forward flat_map fl_undo fl_stmts app lite_allowed snd] in R; destruct R as ((lt & _ & _ & R) & _); destruct R as (_ & _ & _ & G & _ & (_ & C) & N).
  - destruct (N eq_refl) as (Z & _). apply Z. reflexivity.
  - apply C. right. right. left. reflexivity.
  - discriminate G.
Qed.
Print Assumptions C39_sqlite_added_refuted.
(** An index moves to a table that comes earlier. *)
Theorem C39_sqlite_index_refuted : exists src dest, lite_wrong src dest /\ lite_creatable (tables_in dest).
Proof.
  exists (lite_catalog [a_table [] (B"t") [tcol (B"x") (B"INT")] [] []; a_table [] (B"u") [lite_col (B"u") (B"i") (B"INT") false [] false] [] [lite_ix (B"u") (B"k") (B"i")]]),
    (lite_catalog [a_table [] (B"t") [tcol (B"x") (B"INT")] [] [lite_ix (B"t") (B"k") (B"x")]; other_u]). split; [|now_creatable].
  is_wrong foreign_inline. intros (R & _). cbn [lite_runs forward flat_map fl_undo fl_stmts app lite_allowed snd] in R. destruct R as (((_ & U) & _) & _).
  specialize (U (B"u") _ eq_refl). vm_compute in U. discriminate U.
Qed.
Print Assumptions C39_sqlite_index_refuted.
(** There is another table with the name of the copy. *)
Theorem C39_sqlite_new_refuted : exists src dest, lite_wrong src dest /\ lite_creatable (tables_in dest).
Proof.
  set (u := a_table [] (B"t_new") [lite_col (B"t_new") (B"i") (B"INT") false [] false] [] []).
  exists (lite_catalog [a_table [] (B"t") [tcol (B"x") (B"INT")] [] []; u]), (lite_catalog [a_table [] (B"t") [tcol (B"x") (B"TEXT")] [] []; u]). split; [|subst u; now_creatable].
  subst u. is_wrong foreign_inline. intros (R & _). cbn [lite_runs forward flat_map fl_undo fl_stmts app lite_allowed snd] in R. destruct R as (_ & ((U & _) & _) & _). vm_compute in U. discriminate U.
Qed.
Print Assumptions C39_sqlite_new_refuted.
