(** C82: the files of a dump recreate the schema. *)
From Coq Require Import Permutation Lia.
From Verif Require Import GoStr GoStrFacts ModelSq SpecSql SpecInsert SpecTokens SpecDdl ModelCatalog ModelCache ModelDdl ModelDiff ModelDiffSql
  ModelDdlText SpecDdlText SpecDiff DiffLookup DdlTextWitness DiffWitness SpecApply ApplyFacts ApplyWitness ModelDump SpecLoad LoadTexts LoadDump.

(** The files schema.sql, indexes.sql and constraints.sql of a dump are loaded into a database
    without tables.  (Extensions, enums and domains of Postgres are left out.) *)
Definition restored (d : dialect) (cat : catalog) (x : ldb) : Prop :=
  exists c y, dump_constraints d cat = Ok c
    /\ load_files d (ct_current cat) [dump_schema d cat [] (fun _ => ([], [])); dump_indexes d cat; c] x = Some y
    /\ same_database d cat y.
(** The claim: the database then has the schemas, tables, columns, constraints and indexes that
    were dumped. *)
Definition C82_full (d : dialect) : Prop := forall cat x, existing d cat -> l_tables x = [] -> restored d cat x.

(** Restricted to catalogs without foreign keys to later schemas, sequences, AUTO_INCREMENT on
    other keys than the primary key, constraints that are NOT VALID and names with line ends. *)
Theorem C82_partial : forall d cat x, In d [Postgres; MySQL; SQLServer] -> existing d cat -> regular d cat -> l_tables x = [] -> restored d cat x.
Proof. intros d cat x D E G X. exact (dump_loads d cat D (regular_restorable d cat E G) x X). Qed.
Print Assumptions C82_partial.

(** ** Deciding the conditions *)
Lemma qeqb_true a b : qeqb a b = true -> a = b.
Proof. destruct (qeqb_spec a b); [auto|discriminate]. Qed.
Section Decide.
Context (d : dialect) (cat : catalog).
Definition amongb (t : table) (l : list bytes) : bool := forallb (fun n => bmem n (map col_name (tb_columns t))) l.
Lemma amongb_ok t l : amongb t l = true -> among t l.
Proof. intros H n Hn. unfold amongb in H. rewrite forallb_forall in H. apply bmem_In. exact (H n Hn). Qed.
Definition begins (n : bytes) (l : list bytes) : bool := match l with m :: _ => beqb m n | [] => false end.
Definition begins_keyb (t : table) (n : bytes) : bool :=
  existsb (fun k => (is_pkey k || beqb (con_type k) UNIQUE) && begins n (con_columns k)) (tb_constraints t) || existsb (fun i => begins n (ix_columns i)) (tb_indexes t).
Lemma begins_ok n l : begins n l = true -> exists m, l = n :: m.
Proof. destruct l as [|a l]; [discriminate|]. cbn. intros E. apply beqb_eq in E. subst. exists l. reflexivity. Qed.
Lemma unique_ok k : is_pkey k || beqb (con_type k) UNIQUE = true -> unique_key k.
Proof. intros H. apply orb_true_iff in H as [H|H]; [left|right]; apply beqb_eq; exact H. Qed.
Lemma begins_keyb_ok t n : begins_keyb t n = true -> begins_key t n.
Proof.
  intros H. apply orb_true_iff in H as [H|H]; apply existsb_exists in H as (k & Hk & H).
  - left. apply andb_true_iff in H as (U & H). apply begins_ok in H as (m & H). exists k, m. split; [exact Hk|]. split; [apply unique_ok; exact U|exact H].
  - right. apply begins_ok in H as (m & H). exists k, m. split; assumption.
Qed.
Definition at_most_one {A} (f : A -> bool) (l : list A) : bool := List.length (filter f l) <=? 1.
Lemma at_most_one_ok {A} (f : A -> bool) l : at_most_one f l = true -> forall a b, In a l -> In b l -> f a = true -> f b = true -> a = b.
Proof.
  intros H a b Ha Hb Fa Fb. apply Nat.leb_le in H. assert (H1 : In a (filter f l)) by (apply filter_In; auto). assert (H2 : In b (filter f l)) by (apply filter_In; auto).
  destruct (filter f l) as [|x [|y m]]; cbn in H; [destruct H1| |lia]. destruct H1 as [<-|[]], H2 as [<-|[]]. reflexivity.
Qed.
Definition tableb (s : bytes) (t : table) : bool :=
  is_empty (tb_sql t) && negb (tb_virtual t) && plainb d (tb_name t)
  && negb (none (tb_columns t)) && nodupb (map col_name (tb_columns t))
  && forallb (fun c => negb (col_ignore c) && negb (col_generated c && is_empty (col_expr c)) && columnb d (ct_collation cat) false no_reference c
       && (negb (is d MySQL) || negb (col_autoincrement c) || begins_keyb t (col_name c))) (tb_columns t)
  && at_most_one col_autoincrement (tb_columns t)
  && forallb (fun c => negb (con_ignore c) && qeqb (con_schema c, con_table c) (s, tb_name t) && negb (is_empty (con_name c)) && constraintb d (ct_current cat) c
       && (negb (is d MySQL) || negb (is_pkey c) || beqb (con_name c) (B"PRIMARY"))
       && (negb (is_pkey c || beqb (con_type c) UNIQUE || is_fkey c) || amongb t (con_columns c))) (tb_constraints t)
  && at_most_one is_pkey (tb_constraints t)
  && forallb (fun i => negb (is_empty (ix_name i)) && qeqb (ix_schema i, ix_table i) (s, tb_name t) && indexb d i
       && forallb (fun n => is_expression n || bmem n (map col_name (tb_columns t))) (ix_columns i) && amongb t (ix_include i)) (tb_indexes t).
Lemma given_ok (s : bytes) : negb (is_empty s) = true -> s <> [].
Proof. destruct s; [discriminate|discriminate]. Qed.
Lemma tableb_ok s t : tableb s t = true -> existing_table d cat s t.
Proof.
  unfold tableb. intros H. repeat (apply andb_true_iff in H as (H & ?)). rewrite forallb_forall in H0, H2, H4. split.
  - split; [apply empty_eq; exact H|]. split; [apply negb_true_iff; assumption|apply plain_now; assumption].
  - split; [intros E; rewrite E in H6; discriminate|apply nodupb_ok; assumption].
  - intros c Hc. specialize (H4 c Hc). repeat (apply andb_true_iff in H4 as (H4 & ?)). split; [apply negb_true_iff; exact H4|].
    split; [intros G E; rewrite G, E in H11; discriminate H11|]. split; [apply columnb_ok; assumption|].
    intros Dm Ac. split; [intros c' Hc' Ac'; exact (at_most_one_ok _ _ H3 c' c Hc' Hc Ac' Ac)|]. apply begins_keyb_ok. rewrite Dm, Ac in H9. exact H9.
  - intros c Hc. specialize (H2 c Hc). repeat (apply andb_true_iff in H2 as (H2 & ?)). split; [apply negb_true_iff; exact H2|].
    split; [apply qeqb_true; assumption|]. split; [apply given_ok; assumption|].
    split; [apply constraintb_ok; assumption|]. split.
    + intros Dm P. assert (Q : is_pkey c = true) by (apply beqb_eq; exact P). rewrite Dm, Q in H10. apply beqb_eq. exact H10.
    + intros U. assert (Q : is_pkey c || beqb (con_type c) UNIQUE || is_fkey c = true) by (unfold is_pkey, is_fkey; destruct U as [[U|U]|U]; rewrite U; reflexivity).
      rewrite Q in H9. apply amongb_ok. exact H9.
  - intros a b Ha Hb Pa Pb. apply (at_most_one_ok _ _ H1 a b Ha Hb); apply beqb_eq; assumption.
  - intros i Hi. specialize (H0 i Hi). repeat (apply andb_true_iff in H0 as (H0 & ?)). split; [apply qeqb_true; assumption|].
    split; [apply indexb_ok; assumption|]. split; [|apply amongb_ok; assumption]. intros n Hn. rewrite forallb_forall in H10. specialize (H10 n Hn). apply orb_true_iff in H10 as [X|X]; [left; exact X|right; apply bmem_In; exact X].
Qed.
Definition refersb (c : constraint) : bool :=
  existsb (fun e : bytes * table => negb (none (tb_columns (snd e))) && qeqb (target (ct_current cat) c) (fst e, tb_name (snd e)) && amongb (snd e) (con_refcolumns c)
    && existsb (fun k => (is_pkey k || beqb (con_type k) UNIQUE) && same_names (con_columns k) (con_refcolumns c)) (tb_constraints (snd e))) (catalog_tables cat).
Lemma same_names_ok a b : same_names a b = true -> same_set a b.
Proof. intros H n. apply andb_true_iff in H as (H1 & H2). rewrite forallb_forall in H1, H2. split; intros Hn; apply bmem_In; auto. Qed.
Definition existingb : bool :=
  nodupb (map sc_name (ct_schemas cat))
  && forallb (fun s => nodupb (map tb_name (sc_tables s)) && forallb (fun t => beqb (tb_schema t) (sc_name s)) (sc_tables s)
       && negb (is_empty (sc_name s)) && plainb d (sc_name s) && negb (existsb (ceqb squote) (sc_name s))) (ct_schemas cat)
  && (if list_eq_dec entry_dec (nodup entry_dec (catalog_names d cat)) (catalog_names d cat) then true else false)
  && forallb (fun e : bytes * table => tableb (fst e) (snd e) && forallb (fun c => negb (is_fkey c) || refersb c) (tb_constraints (snd e))) (catalog_tables cat).
Lemma existingb_ok : existingb = true -> existing d cat.
Proof.
  unfold existingb. intros H. repeat (apply andb_true_iff in H as (H & ?)). rewrite forallb_forall in H0, H2. split.
  - split; [apply nodupb_ok; exact H|]. intros s Hs. specialize (H2 s Hs). repeat (apply andb_true_iff in H2 as (H2 & ?)). split; [apply nodupb_ok; exact H2|].
    intros t Ht. rewrite forallb_forall in H6. apply beqb_eq. exact (H6 t Ht).
  - intros s Hs. specialize (H2 s Hs). repeat (apply andb_true_iff in H2 as (H2 & ?)). split; [apply given_ok; assumption|]. split; [apply plain_now; assumption|].
    intros _ (a & b & E). apply negb_true_iff in H3. assert (X : existsb (ceqb squote) (sc_name s) = true); [|congruence].
    apply existsb_exists. exists squote. split; [rewrite E; apply in_or_app; right; left; reflexivity|apply ceqb_refl].
  - destruct (list_eq_dec _ _ _) as [E|]; [|discriminate]. rewrite <- E. apply NoDup_nodup.
  - intros s t Ht. specialize (H0 _ Ht). apply andb_true_iff in H0 as (H0 & _). apply tableb_ok. exact H0.
  - intros s t c Ht Hc F. specialize (H0 _ Ht). apply andb_true_iff in H0 as (_ & H0). rewrite forallb_forall in H0. specialize (H0 c Hc).
    assert (Q : is_fkey c = true) by (apply beqb_eq; exact F). rewrite Q in H0. cbn [negb orb] in H0. apply existsb_exists in H0 as ([s' u] & Hu & H0). cbn [fst snd] in H0.
    repeat (apply andb_true_iff in H0 as (H0 & ?)). exists s', u. split; [exact Hu|]. split; [apply qeqb_true; assumption|].
    split; [apply amongb_ok; assumption|]. left. apply existsb_exists in H3 as (k & Hk & H3). apply andb_true_iff in H3 as (U & H3). exists k. split; [exact Hk|]. split; [apply unique_ok; exact U|apply same_names_ok; exact H3].
Qed.
Fixpoint orderb (before : list bytes) (l : list schema) : bool :=
  match l with
  | [] => true
  | s :: l' =>
      forallb (fun t => forallb (fun c => negb (is_fkey c) || bmem (fst (target (ct_current cat) c)) (before ++ [sc_name s])) (tb_constraints t)) (sc_tables s)
      && orderb (before ++ [sc_name s]) l'
  end.
Lemma orderb_ok l : forall before, orderb before l = true -> forall l1 s l2 t c, l = l1 ++ s :: l2 -> In t (sc_tables s) -> In c (tb_constraints t) -> foreign c ->
  In (fst (target (ct_current cat) c)) (before ++ map sc_name (l1 ++ [s])).
Proof.
  induction l as [|a l IH]; intros before H l1 s l2 t c E Ht Hc F; [destruct l1; discriminate E|]. cbn [orderb] in H. apply andb_true_iff in H as (H & H').
  destruct l1 as [|b l1]; cbn [app] in E; injection E as -> ->.
  - rewrite forallb_forall in H. specialize (H t Ht). rewrite forallb_forall in H. specialize (H c Hc). assert (Q : is_fkey c = true) by (apply beqb_eq; exact F). rewrite Q in H. apply bmem_In. exact H.
  - specialize (IH _ H' l1 s l2 t c eq_refl Ht Hc F). cbn [map app]. rewrite <- app_assoc in IH. exact IH.
Qed.
Definition one_lineb (s : bytes) : bool := negb (existsb (fun c => ceqb c LF || ceqb c CR) s).
Lemma one_lineb_ok s : one_lineb s = true -> one_line s.
Proof.
  intros H. apply negb_true_iff in H. split; intros Z; assert (X : existsb (fun c => ceqb c LF || ceqb c CR) s = true) by (apply existsb_exists; eexists; split; [exact Z|reflexivity]); congruence.
Qed.
Definition regularb : bool :=
  (is d MySQL || orderb [] (ct_schemas cat))
  && forallb (fun e : bytes * table => one_lineb (fst e) && one_lineb (tb_name (snd e))
       && forallb (fun c => negb (con_notvalid c)) (tb_constraints (snd e))
       && forallb (fun c => (negb (is d Postgres) || negb (uses_sequence (text d (col_default c))))
            && (negb (is d MySQL) || negb (col_autoincrement c) || existsb (fun k => is_pkey k && begins (col_name c) (con_columns k)) (tb_constraints (snd e)))) (tb_columns (snd e)))
       (catalog_tables cat).
Lemma regularb_ok : regularb = true -> regular d cat.
Proof.
  unfold regularb. intros H. apply andb_true_iff in H as (O & H). rewrite forallb_forall in H.
  assert (A : forall s t, In (s, t) (catalog_tables cat) -> one_lineb s = true /\ one_lineb (tb_name t) = true /\ (forall c, In c (tb_constraints t) -> con_notvalid c = false)
    /\ forall c, In c (tb_columns t) -> (negb (is d Postgres) || negb (uses_sequence (text d (col_default c)))) = true
       /\ (negb (is d MySQL) || negb (col_autoincrement c) || existsb (fun k => is_pkey k && begins (col_name c) (con_columns k)) (tb_constraints t)) = true).
  { intros s t Ht. specialize (H _ Ht). cbn [fst snd] in H. repeat (apply andb_true_iff in H as (H & ?)). rewrite forallb_forall in H0, H1. split; [exact H|]. split; [assumption|].
    split; [intros c Hc; apply negb_true_iff; exact (H1 c Hc)|]. intros c Hc. specialize (H0 c Hc). apply andb_true_iff in H0. exact H0. }
  split.
  - apply orb_true_iff in O as [O|O]; [left; apply is_eq; exact O|right]. intros l1 s l2 t c. exact (orderb_ok _ [] O l1 s l2 t c).
  - intros Dp s t c Ht Hc. destruct (A s t Ht) as (_ & _ & _ & X). destruct (X c Hc) as (X1 & _). rewrite Dp in X1. cbn [is negb orb] in X1. apply negb_true_iff in X1. rewrite Dp. exact X1.
  - intros Dm s t c Ht Hc Ac. destruct (A s t Ht) as (_ & _ & _ & X). destruct (X c Hc) as (_ & X1). rewrite Dm, Ac in X1. cbn [is negb orb] in X1. apply existsb_exists in X1 as (k & Hk & X1).
    apply andb_true_iff in X1 as (P & X1). apply begins_ok in X1 as (m & X1). exists k, m. split; [exact Hk|]. split; [apply beqb_eq; exact P|exact X1].
  - intros s t c Ht Hc. destruct (A s t Ht) as (_ & _ & X & _). exact (X c Hc).
  - intros s t Ht. destruct (A s t Ht) as (X1 & X2 & _). split; apply one_lineb_ok; assumption.
Qed.
(** The files can be loaded into an empty database. *)
Definition restores : bool :=
  match dump_constraints d cat with
  | Ok c => match load_files d (ct_current cat) [dump_schema d cat [] (fun _ => ([], [])); dump_indexes d cat; c] (LDb [] []) with Some _ => true | None => false end
  | _ => false
  end.
Lemma not_restored : restores = false -> ~ restored d cat (LDb [] []).
Proof. unfold restores. intros H (c & y & E & L & _). rewrite E, L in H. discriminate H. Qed.
End Decide.

(** ** Databases *)
Definition check_of (s t n e : bytes) (notvalid : bool) : constraint :=
  Constraint s t n CHECK [] [] [] [] [] [] [] e [] [] [] false false false notvalid false.
Definition counter (s t n ty : bytes) (auto : bool) (def : bytes) : column :=
  Column s t n ty [] [] [] [] false true false false auto [] def false false [] false [] false.
Definition database (d : dialect) (l : list schema) : catalog := a_catalog d (B"db") l.
Definition keyed (d : dialect) (s t : bytes) (cols : list column) (cons : list constraint) : table :=
  a_table s t (col s t (B"id") (B"INT") true [] :: cols) (pkey d s t (B"id") :: cons) [].
(** Films, actors, a check, indexes and a second schema. *)
Definition cinema (d : dialect) : catalog :=
  database d
    [Schema (B"db")
       [a_table (B"db") (B"film")
          (tb_columns (film2 d) ++ [col (B"db") (B"film") (B"length") (B"INT") false []])
          (tb_constraints (film2 d) ++ [check_of (B"db") (B"film") (B"film_length_check") (B"length > 0") false])
          (tb_indexes (film2 d)); actor2 d; language2 d] false;
     Schema (B"prizes") [award2 d] false].
(** A foreign key to a unique column of a table in a later schema. *)
Definition forward (d : dialect) : catalog :=
  database d
    [Schema (B"db") [keyed d (B"db") (B"film") [col (B"db") (B"film") (B"actor_id") (B"INT") false []]
                       [a_fkey (B"db") (B"film") (B"film_actor_id_fkey") [B"actor_id"] (B"people") (B"actor") [B"nr"]]] false;
     Schema (B"people") [keyed d (B"people") (B"actor") [col (B"people") (B"actor") (B"nr") (B"INT") true []] [a_key (B"people") (B"actor") (B"actor_nr_key") UNIQUE [B"nr"]]] false].
(** A column of type SERIAL. *)
Definition serial : catalog :=
  database Postgres
    [Schema (B"db") [a_table (B"db") (B"film") [counter (B"db") (B"film") (B"id") (B"INT") false (B"nextval('film_id_seq'::regclass)")] [pkey Postgres (B"db") (B"film") (B"id")] []] false].
(** AUTO_INCREMENT on a unique key beside the primary key. *)
Definition numbered : catalog :=
  database MySQL
    [Schema (B"db") [keyed MySQL (B"db") (B"film") [counter (B"db") (B"film") (B"nr") (B"INT") true []] [a_key (B"db") (B"film") (B"film_nr_key") UNIQUE [B"nr"]]] false].
(** A name with a line end. *)
Definition broken (d : dialect) : catalog := database d [Schema (B"db") [keyed d (B"db") (B"fi" ++ [LF] ++ B"lm") [] []] false].
(** A constraint that is not yet valid. *)
Definition unchecked : catalog :=
  database Postgres [Schema (B"db") [keyed Postgres (B"db") (B"film") [] [check_of (B"db") (B"film") (B"film_id_check") (B"id > 0") true]] false].

(** The conditions are met and the files can be loaded. *)
Example C82_example : forall d, In d [Postgres; MySQL; SQLServer] ->
  existing d (cinema d) /\ regular d (cinema d) /\ restored d (cinema d) (LDb [] []) /\ restores d (cinema d) = true.
Proof.
  intros d D. assert (E : existing d (cinema d)) by (apply existingb_ok; destruct D as [<-|[<-|[<-|[]]]]; vm_compute; reflexivity).
  assert (G : regular d (cinema d)) by (apply regularb_ok; destruct D as [<-|[<-|[<-|[]]]]; vm_compute; reflexivity).
  split; [exact E|]. split; [exact G|]. split; [exact (C82_partial d (cinema d) (LDb [] []) D E G eq_refl)|]. destruct D as [<-|[<-|[<-|[]]]]; vm_compute; reflexivity.
Qed.
(** MySQL does not look at the keys that foreign keys refer to. *)
Example C82_example_order : restored MySQL (forward MySQL) (LDb [] []).
Proof. apply C82_partial; [right; left; reflexivity|apply existingb_ok; vm_compute; reflexivity|apply regularb_ok; vm_compute; reflexivity|reflexivity]. Qed.

(** ** The claim as such does not hold *)
(** Foreign keys are added schema by schema, before the keys of later schemas; the sequence of a
    SERIAL column is not created; a unique key is added after the table with AUTO_INCREMENT; the
    name of a table is written in a comment, whatever is in it. *)
Theorem C82_refuted : forall e, In e [(Postgres, forward Postgres); (SQLServer, forward SQLServer); (Postgres, serial); (MySQL, numbered);
    (Postgres, broken Postgres); (MySQL, broken MySQL); (SQLServer, broken SQLServer)] ->
  existing (fst e) (snd e) /\ ~ restored (fst e) (snd e) (LDb [] []).
Proof.
  intros e H. repeat (destruct H as [<-|H]; [split; [apply existingb_ok; vm_compute; reflexivity|apply not_restored; vm_compute; reflexivity]|]). destruct H.
Qed.
Print Assumptions C82_refuted.
(** A constraint that is NOT VALID is valid afterwards. *)
Theorem C82_refuted_valid : existing Postgres unchecked /\ ~ restored Postgres unchecked (LDb [] []).
Proof.
  split; [apply existingb_ok; vm_compute; reflexivity|]. intros (c & y & E & L & S).
  assert (Hy : forallb (fun t => forallb (fun k => negb (snd k)) (lt_constraints t)) (l_tables y) = true).
  { assert (X : match dump_constraints Postgres unchecked with
      | Ok c => match load_files Postgres (ct_current unchecked) [dump_schema Postgres unchecked [] (fun _ => ([], [])); dump_indexes Postgres unchecked; c] (LDb [] []) with
                | Some y => forallb (fun t => forallb (fun k : constraint_def * bool => negb (snd k)) (lt_constraints t)) (l_tables y) | None => false end
      | _ => false end = true) by (vm_compute; reflexivity).
    rewrite E, L in X. exact X. }
  destruct S as (_ & F). change (catalog_tables unchecked) with [(B"db", keyed Postgres (B"db") (B"film") [] [check_of (B"db") (B"film") (B"film_id_check") (B"id > 0") true])] in F.
  inversion F as [|e t l l' T F' E1 E2]; subst. rewrite <- E2 in Hy. cbn [forallb] in Hy. apply andb_true_iff in Hy as (Hy & _).
  destruct T as (_ & _ & P & _). rewrite forallb_forall in Hy.
  set (k := check_of (B"db") (B"film") (B"film_id_check") (B"id > 0") true) in *.
  specialize (Hy (constraint_meant Postgres (ct_current unchecked) k, true)). discriminate Hy. symmetry in P. apply (Permutation_in _ P). right. left. reflexivity.
Qed.
Print Assumptions C82_refuted_valid.
Theorem C82_refuted_full : forall d, In d [Postgres; MySQL; SQLServer] -> ~ C82_full d.
Proof.
  intros d D F. destruct (C82_refuted (d, broken d)) as (E & N); [destruct D as [<-|[<-|[<-|[]]]]; cbn; tauto|]. exact (N (F (broken d) (LDb [] []) E eq_refl)).
Qed.
Print Assumptions C82_refuted_full.
