(** Catalogs for the examples of PropDiff.v. *)
From Verif Require Import GoStr ModelCatalog ModelCache ModelDdl ModelDiff ModelDiffSql SpecDiff.

Definition bare_table (s t : bytes) : table := Table s t [] false [] [] [] false.
(** A column of type [ty] that may be NULL. *)
Definition a_column (n ty : bytes) : column := new_column (bare_table [] []) n ty.
Definition required (n ty def : bytes) : column :=
  Column [] [] n ty [] [] [] [] false true false false false [] def false false [] false [] false.
Definition a_key (s t n ty : bytes) (cols : list bytes) : constraint := new_constraint (bare_table s t) n ty cols.
Definition a_fkey (s t n : bytes) (cols : list bytes) (rs rt : bytes) (rcols : list bytes) : constraint :=
  Constraint s t n FOREIGN_KEY cols rs rt rcols [] [] [] [] [] [] [] false false false false false.
Definition an_index (s t n : bytes) (cols : list bytes) : index := Index s t n [] false cols [] [] [] [] [] false.
Definition a_table (s t : bytes) (cols : list column) (cons : list constraint) (ixs : list index) : table :=
  Table s t [] false cols cons ixs false.
Definition a_catalog (d : dialect) (cur : bytes) (l : list schema) : catalog := Catalog d [14] cur [] l.
Definition one_schema (d : dialect) (s : bytes) (l : list table) : catalog := a_catalog d s [Schema s l false].

(** A part of the sakila database. *)
Definition actor (s : bytes) : table :=
  a_table s (B"actor") [required (B"actor_id") (B"INT") []; a_column (B"name") (B"VARCHAR(50)"); a_column (B"note") (B"TEXT")]
    [a_key s (B"actor") (B"actor_actor_id_pkey") PRIMARY_KEY [B"actor_id"]] [an_index s (B"actor") (B"actor_name_idx") [B"name"]].
Definition film (s : bytes) : table :=
  a_table s (B"film") [required (B"film_id") (B"INT") []; a_column (B"title") (B"VARCHAR(255)"); a_column (B"lead_id") (B"INT")]
    [a_key s (B"film") (B"film_film_id_pkey") PRIMARY_KEY [B"film_id"];
     a_fkey s (B"film") (B"film_lead_id_fkey") [B"lead_id"] s (B"actor") [B"actor_id"]] [].
Definition language (s : bytes) : table :=
  a_table s (B"language") [required (B"language_id") (B"INT") []] [a_key s (B"language") (B"language_language_id_pkey") PRIMARY_KEY [B"language_id"]] [].
(** actor loses a column and an index and gains a column, film gains a column, a foreign key
    and an index; its title gets shorter. *)
Definition actor2 (s : bytes) : table :=
  a_table s (B"actor") [required (B"actor_id") (B"INT") []; a_column (B"name") (B"VARCHAR(50)"); a_column (B"born") (B"DATE")]
    [a_key s (B"actor") (B"actor_actor_id_pkey") PRIMARY_KEY [B"actor_id"]] [].
Definition film2 (s : bytes) : table :=
  a_table s (B"film") [required (B"film_id") (B"INT") []; a_column (B"title") (B"VARCHAR(100)"); a_column (B"lead_id") (B"INT"); a_column (B"language_id") (B"INT")]
    [a_key s (B"film") (B"film_film_id_pkey") PRIMARY_KEY [B"film_id"];
     a_fkey s (B"film") (B"film_lead_id_fkey") [B"lead_id"] s (B"actor") [B"actor_id"];
     a_fkey s (B"film") (B"film_language_id_fkey") [B"language_id"] s (B"language") [B"language_id"]]
    [an_index s (B"film") (B"film_title_idx") [B"title"]].
Definition old_db (d : dialect) : catalog := one_schema d (B"db") [actor (B"db"); film (B"db")].
Definition new_db (d : dialect) : catalog := one_schema d (B"db") [actor2 (B"db"); film2 (B"db"); language (B"db")].

Definition no_float (_ : bytes) : bool := false.
Definition stmts_of (r : result (list file * list warning)) : list stmt := match r with Ok (l, _) => forward l | _ => [] end.
Definition got (r : result (list file * list warning)) : list file * list warning := match r with Ok x => x | _ => ([], []) end.

(** ** The hypotheses hold for these catalogs *)
Definition bytes_dec : forall a b : bytes, {a = b} + {a <> b} := list_eq_dec Ascii.ascii_dec.
Definition nodupb (l : list bytes) : bool := if list_eq_dec bytes_dec (nodup bytes_dec l) l then true else false.
Lemma nodupb_ok : forall l, nodupb l = true -> NoDup l.
Proof.
  intros l H. unfold nodupb in H. destruct (list_eq_dec _ _ _) as [E|E]; [|discriminate]. rewrite <- E. apply NoDup_nodup.
Qed.
Ltac each H := cbn in H; repeat (destruct H as [H|H]; [subst|]); try contradiction H.
Definition dialects : list dialect := [SQLite; Postgres; MySQL; SQLServer].
Lemma old_unique : forall d, unique_names (ct_schemas (old_db d)).
Proof.
  intro d. split; [split|].
  - apply nodupb_ok. reflexivity.
  - intros s H. each H. split; [apply nodupb_ok; reflexivity|]. intros t H. each H; reflexivity.
  - intros s t H H'. each H. each H'; repeat split; apply nodupb_ok; reflexivity.
Qed.
Lemma new_unique : forall d, unique_names (ct_schemas (new_db d)).
Proof.
  intro d. split; [split|].
  - apply nodupb_ok. reflexivity.
  - intros s H. each H. split; [apply nodupb_ok; reflexivity|]. intros t H. each H; reflexivity.
  - intros s t H H'. each H. each H'; repeat split; apply nodupb_ok; reflexivity.
Qed.
Lemma old_readable : forall d, readable_types d (ct_schemas (old_db d)).
Proof. intros d s t c H H' H''. each H. each H'; each H''; destruct d; eexists; vm_compute; reflexivity. Qed.
Lemma new_readable : forall d, readable_types d (ct_schemas (new_db d)).
Proof. intros d s t c H H' H''. each H. each H'; each H''; destruct d; eexists; vm_compute; reflexivity. Qed.
Lemma old_named : forall d, named_keys (ct_schemas (old_db d)).
Proof. intros d s t c H H' H'' _. each H. each H'; each H''; discriminate. Qed.
Lemma new_named : forall d, named_keys (ct_schemas (new_db d)).
Proof. intros d s t c H H' H'' _. each H. each H'; each H''; discriminate. Qed.
Lemma both_kinds : forall d, same_kinds (ct_schemas (old_db d)) (ct_schemas (new_db d)).
Proof.
  intros d s t a b (ss & ds & H1 & H2 & _ & H3 & H4 & E) Ha Hb N. each H1. each H2. each H3; each H4; try discriminate E; each Ha; each Hb; try discriminate N; reflexivity.
Qed.
Lemma old_single : forall d, single_primary_keys (ct_schemas (old_db d)).
Proof. intros d s t a b H H' Ha Hb Ta Tb. each H. each H'; each Ha; each Hb; try discriminate Ta; try discriminate Tb; reflexivity. Qed.
Lemma old_owner : forall d, one_owner (ct_schemas (old_db d)).
Proof.
  intros d s t a s' t' b H1 H2 Ha H3 H4 Hb Ta Tb P. each H1. each H3. each H2; each Ha; try discriminate Ta; each H4; each Hb; try discriminate Tb; split; reflexivity.
Qed.
Lemma new_owner : forall d, one_owner (ct_schemas (new_db d)).
Proof.
  intros d s t a s' t' b H1 H2 Ha H3 H4 Hb Ta Tb P. each H1. each H3. each H2; each Ha; try discriminate Ta; each H4; each Hb; try discriminate Tb; split; reflexivity.
Qed.
Lemma plain_ok : forall s, forallb (fun c => negb (ceqb c "."%char) && negb (ceqb c "/"%char)) s = true -> plain s.
Proof.
  intros s H. rewrite forallb_forall in H. split; intro I; specialize (H _ I); discriminate H.
Qed.
Lemma old_plain : forall d, plain_names (ct_schemas (old_db d)).
Proof.
  intros d s H. each H. split; [apply plain_ok; reflexivity|].
  intros t H. each H; (split; [apply plain_ok; reflexivity|]; split; [apply plain_ok; reflexivity|]; split;
    [intros c Hc; each Hc; (split; [|split; [|split; [|split]]]); apply plain_ok; reflexivity|intros x Hx; each Hx; apply plain_ok; reflexivity]).
Qed.
Lemma new_plain : forall d, plain_names (ct_schemas (new_db d)).
Proof.
  intros d s H. each H. split; [apply plain_ok; reflexivity|].
  intros t H. each H; (split; [apply plain_ok; reflexivity|]; split; [apply plain_ok; reflexivity|]; split;
    [intros c Hc; each Hc; (split; [|split; [|split; [|split]]]); apply plain_ok; reflexivity|intros x Hx; each Hx; apply plain_ok; reflexivity]).
Qed.

(** ** Where the claims fail *)
(** SQL Server: a and b are joined by k1 and k2, whose columns change; k3 is new, as is c. *)
Definition joined_table (ty : bytes) (keys : list bytes) : table :=
  a_table (B"dbo") (B"a") [a_column (B"x") ty; a_column (B"y") ty]
    (map (fun n => a_fkey (B"dbo") (B"a") n [B"x"] (B"dbo") (B"b") [B"id"]) keys) [].
Definition b_table : table := a_table (B"dbo") (B"b") [required (B"id") (B"INT") []] [a_key (B"dbo") (B"b") (B"b_pkey") PRIMARY_KEY [B"id"]] [].
Definition c_table : table :=
  a_table (B"dbo") (B"c") [a_column (B"x") (B"INT")] [a_fkey (B"dbo") (B"c") (B"c_fkey") [B"x"] (B"dbo") (B"b") [B"id"]] [].
Definition joined_old : catalog := one_schema SQLServer (B"dbo") [joined_table (B"INT") [B"k1"; B"k2"]; b_table].
Definition joined_new : catalog := one_schema SQLServer (B"dbo") [c_table; joined_table (B"BIGINT") [B"k1"; B"k2"; B"k3"]; b_table].
Definition joined_new' : catalog := one_schema SQLServer (B"dbo") [joined_table (B"BIGINT") [B"k1"; B"k2"; B"k3"]; b_table].
(** MySQL: the name of a foreign key is that of the primary key in the destination. *)
Definition renamed_old : catalog :=
  one_schema MySQL (B"db") [a_table (B"db") (B"t") [required (B"x") (B"INT") []; required (B"y") (B"INT") []]
                              [a_fkey (B"db") (B"t") (B"k") [B"x"] (B"db") (B"t") [B"y"]] []].
Definition renamed_new : catalog :=
  one_schema MySQL (B"db") [a_table (B"db") (B"t") [required (B"x") (B"INT") []; required (B"y") (B"INT") []]
                              [a_key (B"db") (B"t") (B"k") PRIMARY_KEY [B"y"]] []].
(** SQLite: a table that is ignored. *)
Definition ignored_new : catalog :=
  a_catalog SQLite [] [Schema [] [Table [] (B"t") [] false [a_column (B"x") (B"INT")] [] [] true] false].
(** A column that is not in the destination, and no other difference. *)
Definition extra_old (d : dialect) : catalog :=
  one_schema d (B"db") [a_table (B"db") (B"t") [a_column (B"x") (B"INT"); a_column (B"y") (B"INT")] [] []].
Definition extra_new (d : dialect) : catalog := one_schema d (B"db") [a_table (B"db") (B"t") [a_column (B"x") (B"INT")] [] []].
(** Postgres: two tables that refer to each other. *)
Definition circle_old : catalog :=
  one_schema Postgres (B"public") [a_table (B"public") (B"a") [a_column (B"x") (B"INT")] [] []; a_table (B"public") (B"b") [a_column (B"x") (B"INT")] [] []].
Definition circle_new : catalog :=
  one_schema Postgres (B"public")
    [a_table (B"public") (B"a") [a_column (B"x") (B"INT")] [a_fkey (B"public") (B"a") (B"a_fkey") [B"x"] (B"public") (B"b") [B"x"]] [];
     a_table (B"public") (B"b") [a_column (B"x") (B"INT")] [a_fkey (B"public") (B"b") (B"b_fkey") [B"x"] (B"public") (B"a") [B"x"]] []].
(** Postgres: a hundred new indexes. *)
Definition many_old : catalog := one_schema Postgres (B"public") [a_table (B"public") (B"t") [a_column (B"x") (B"INT")] [] []].
Definition many_new : catalog :=
  one_schema Postgres (B"public") [a_table (B"public") (B"t") [a_column (B"x") (B"INT")] []
    (map (fun n => an_index (B"public") (B"t") (B"ix" ++ nat_dec n) [B"x"]) (seq 0 100))].
(** Postgres: a column with another type. *)
Definition typed (ty : bytes) : catalog := one_schema Postgres (B"public") [a_table (B"public") (B"t") [a_column (B"x") ty] [] []].
Definition with_required : catalog :=
  one_schema Postgres (B"public") [a_table (B"public") (B"t") [a_column (B"x") (B"INT"); required (B"y") (B"INT") []] [] []].
(** A name with a dot. *)
Definition dotted_new : catalog :=
  one_schema MySQL (B"db") [a_table (B"db") (B"t") [a_column (B"x") (B"INT")] [a_fkey (B"db") (B"t") (B"x.undo") [B"x"] (B"db") (B"t") [B"x"]] []].
