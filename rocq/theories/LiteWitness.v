(** Catalogs for the examples of PropLite.v. *)
From Coq Require Import Lia.
From Verif Require Import GoStr GoStrFacts ModelCatalog ModelCache ModelDdl ModelDiff ModelDiffSql SpecDiff DiffLookup DiffFacts DiffSelf DiffSqlite DiffWitness SpecApply ApplyFacts SpecLite LiteFacts LitePair.

(** ** The database that a catalog describes *)
(** [inline] tells which keys are part of columns. *)
Definition shown (inline : constraint -> bool) (t : table) : ltable :=
  LTable (fun n => option_map lite_stored (called col_name (tb_columns t) n)) (map (fun c => key_of (inline c) c) (tb_constraints t))
    (fun n => called ix_name (tb_indexes t) n).
Definition as_lite (inline : constraint -> bool) (l : list table) : ldatabase := fun n => option_map (shown inline) (called tb_name l n).
Lemma as_lite_described : forall inline l, NoDup (map tb_name l) -> lite_describes l (as_lite inline l).
Proof.
  intros inline l U. split.
  - intro n. unfold as_lite. rewrite <- (called_is tb_name). destruct (called tb_name l n) as [t|]; cbn [option_map].
    + split; [intros _; eauto|discriminate].
    + split; [congruence|intros (t & E); discriminate].
  - intros t lt Ht E. unfold as_lite in E. rewrite (called_in tb_name l t U Ht) in E. cbn [option_map] in E. injection E as <-. split; [reflexivity|]. split; [|split; [|reflexivity]].
    + intros k Hk. cbn in Hk. apply in_map_iff in Hk. destruct Hk as (c & <- & Hc). exists c. split; [exact Hc|apply key_of_inline].
    + intros c Hc. exists (key_of (inline c) c). split; [cbn; apply in_map_iff; eauto|apply key_of_inline].
Qed.

(** ** Checking names *)
Definition entries (l : list table) : list (bytes * option bytes) :=
  flat_map (fun t => (tb_name t, None) :: map (fun i => (ix_name i, Some (tb_name t))) (tb_indexes t)) l.
Lemma entries_in : forall l n o, table_or_index l n o -> In (n, o) (entries l).
Proof.
  intros l n o (t & Ht & H). apply in_flat_map. exists t. split; [exact Ht|]. destruct o as [m|].
  - destruct H as (<- & H). right. apply in_map_iff in H. destruct H as (i & <- & H). apply in_map_iff. eauto.
  - left. rewrite H. reflexivity.
Qed.
Definition same_owner (o o' : option bytes) : bool := match o, o' with None, None => true | Some m, Some n => beqb m n | _, _ => false end.
Definition separateb (a b : list table) : bool :=
  forallb (fun p => forallb (fun q => negb (beqb (fst p) (fst q)) || same_owner (snd p) (snd q)) (entries (a ++ b))) (entries (a ++ b)).
Lemma entries_either : forall a b n o, table_or_index a n o \/ table_or_index b n o -> In (n, o) (entries (a ++ b)).
Proof. intros a b n o H. unfold entries. rewrite flat_map_app. apply in_app_iff. destruct H as [H|H]; apply entries_in in H; auto. Qed.
Lemma separateb_ok : forall a b, separateb a b = true -> lite_separate a b.
Proof.
  intros a b H n o o' H1 H2. apply entries_either in H1. apply entries_either in H2. unfold separateb in H. rewrite forallb_forall in H.
  specialize (H _ H1). rewrite forallb_forall in H. specialize (H _ H2). cbn [fst snd] in H. rewrite beqb_refl in H. cbn in H.
  destruct o as [m|], o' as [m'|]; try discriminate; [|reflexivity]. f_equal. apply beqb_eq. exact H.
Qed.
Definition freeb (a b : list table) : bool :=
  forallb (fun t => negb (bmem (interim t) (map fst (entries (a ++ b))))
    && forallb (fun u => forallb (fun k => negb (beqb (con_reftable k) (interim t))) (tb_constraints u)) (a ++ b)) b.
Lemma freeb_ok : forall a b, freeb a b = true -> lite_free a b.
Proof.
  intros a b H t Ht. unfold freeb in H. rewrite forallb_forall in H. specialize (H t Ht). apply andb_true_iff in H. destruct H as (H1 & H2).
  apply negb_true_iff in H1. split.
  - intros o K. apply entries_either in K. apply (in_map fst) in K. cbn in K. apply (proj2 (bmem_In _ _)) in K. congruence.
  - intros u k Hu Hk _ E. rewrite forallb_forall in H2. specialize (H2 u (proj2 (in_app_iff _ _ _) Hu)). rewrite forallb_forall in H2. specialize (H2 k Hk).
    rewrite E, beqb_refl in H2. discriminate.
Qed.

(** ** Parts of catalogs *)
Definition lite_col (t n ty : bytes) (notnull : bool) (def : bytes) (pk : bool) : column :=
  Column [] t n ty [] [] [] [] false notnull pk false false [] def false false [] false [] false.
Definition lite_pk (t n : bytes) : constraint := DiffWitness.a_key [] t [] PRIMARY_KEY [n].
Definition lite_fk (t n u m : bytes) : constraint := a_fkey [] t [] [n] [] u [m].
Definition lite_ix (t n m : bytes) : index := an_index [] t n [m].
Definition lite_catalog (l : list table) : catalog := one_schema SQLite [] l.

(** ** Two catalogs *)
(** The table genre disappears and language is new; actor loses two columns, one of which refers to
    genre, and an index, and gains a column that refers to language and an index; the titles of
    films become unique and have a default; nothing happens to log. *)
Definition lactor1 : table :=
  a_table [] (B"actor")
    [lite_col (B"actor") (B"actor_id") (B"INTEGER") false [] true; lite_col (B"actor") (B"name") (B"TEXT") false [] false;
     lite_col (B"actor") (B"note") (B"TEXT") false [] false; lite_col (B"actor") (B"genre_id") (B"INTEGER") false [] false]
    [lite_pk (B"actor") (B"actor_id"); lite_fk (B"actor") (B"genre_id") (B"genre") (B"genre_id")]
    [lite_ix (B"actor") (B"actor_name_idx") (B"name")].
Definition lfilm1 : table :=
  a_table [] (B"film")
    [lite_col (B"film") (B"film_id") (B"INTEGER") false [] true; lite_col (B"film") (B"title") (B"TEXT") false [] false;
     lite_col (B"film") (B"lead_id") (B"INTEGER") false [] false; lite_col (B"film") (B"length") (B"INT") false [] false]
    [lite_pk (B"film") (B"film_id"); lite_fk (B"film") (B"lead_id") (B"actor") (B"actor_id")] [lite_ix (B"film") (B"film_title_idx") (B"title")].
Definition lgenre1 : table :=
  a_table [] (B"genre") [lite_col (B"genre") (B"genre_id") (B"INTEGER") false [] true] [lite_pk (B"genre") (B"genre_id")] [].
Definition llog : table := a_table [] (B"log") [lite_col (B"log") (B"line") (B"TEXT") false [] false] [] [].
Definition lite_before : catalog := lite_catalog [lactor1; lfilm1; lgenre1; llog].
Definition lactor2 : table :=
  a_table [] (B"actor")
    [lite_col (B"actor") (B"actor_id") (B"INTEGER") false [] true; lite_col (B"actor") (B"name") (B"TEXT") false [] false;
     lite_col (B"actor") (B"language_id") (B"INTEGER") false [] false; lite_col (B"actor") (B"awards") (B"INT") true (B"0") false]
    [lite_pk (B"actor") (B"actor_id"); lite_fk (B"actor") (B"language_id") (B"language") (B"language_id")]
    [lite_ix (B"actor") (B"actor_language_id_idx") (B"language_id")].
Definition lfilm2 : table :=
  a_table [] (B"film")
    [lite_col (B"film") (B"film_id") (B"INTEGER") false [] true; lite_col (B"film") (B"title") (B"TEXT") false (B"'untitled'") false;
     lite_col (B"film") (B"lead_id") (B"INTEGER") false [] false; lite_col (B"film") (B"year") (B"INT") false [] false]
    [lite_pk (B"film") (B"film_id"); DiffWitness.a_key [] (B"film") [] UNIQUE [B"title"]; lite_fk (B"film") (B"lead_id") (B"actor") (B"actor_id")]
    [lite_ix (B"film") (B"film_year_idx") (B"year")].
Definition llanguage2 : table :=
  a_table [] (B"language") [lite_col (B"language") (B"language_id") (B"INTEGER") false [] true; lite_col (B"language") (B"name") (B"TEXT") true [] false]
    [lite_pk (B"language") (B"language_id")] [lite_ix (B"language") (B"language_name_idx") (B"name")].
Definition lite_then : catalog := lite_catalog [lactor2; lfilm2; llanguage2; llog].

Ltac a_kind := first [left; left; reflexivity|left; right; reflexivity|right; reflexivity].
Ltac not_virtual := let V := fresh in intro V; apply is_virtual_spec in V; discriminate V.
Ltac now_orderly :=
  split; [split; [cbn; lia|intros s H; each H; split; reflexivity]|split; [apply nodupb_ok; vm_compute; reflexivity|]];
  intros t H; each H; (split; [reflexivity|]; split; [reflexivity|]; split; [not_virtual|];
    split; [apply nodupb_ok; vm_compute; reflexivity|]; split; [apply nodupb_ok; vm_compute; reflexivity|]; split; [intros c Hc; each Hc; reflexivity|];
    split; [intros k Hk; each Hk; (split; [reflexivity|]; split; [reflexivity|]; split; [a_kind|]; split; [discriminate|]; intros n Hn; each Hn; cbn; tauto)
           |intros i Hi; each Hi; split; reflexivity]).
Ltac no := let E := fresh in intro E; discriminate E.
Ltac pkey_flag := split;
  [let E := fresh in intro E; first [discriminate E|eexists; split; [left; reflexivity|split; reflexivity]]
  |let k := fresh in let Hk := fresh in let P := fresh in let E := fresh in
   intros (k & Hk & P & E); each Hk; first [reflexivity|discriminate P|discriminate E]].
Ltac same_keys := let p := fresh in let q := fresh in let Hp := fresh in let Hq := fresh in let E1 := fresh in let E2 := fresh in
  intros p q Hp Hq; each Hp; each Hq; intros E1 E2; first [discriminate E1|discriminate E2|repeat split; reflexivity].
Ltac now_creatable :=
  intros t H; each H; (split; [reflexivity|]; split; [discriminate|]; split;
    [intros c Hc; each Hc; (split; [reflexivity|]; split; [reflexivity|]; split; [reflexivity|]; split; [reflexivity|]; split; [discriminate|]; split; [|discriminate]; pkey_flag)
    |split; [cbn; lia|split; [same_keys|]];
     intros i Hi; each Hi; (split; [discriminate|]; split; [reflexivity|]; intros n Hn; each Hn; left; cbn; tauto)]).

Lemma lite_before_orderly : lite_orderly lite_before.
Proof. now_orderly. Qed.
Lemma lite_then_orderly : lite_orderly lite_then.
Proof. now_orderly. Qed.
Lemma lite_then_creatable : lite_creatable (tables_in lite_then).
Proof. now_creatable. Qed.
Definition foreign_inline (c : constraint) : bool := beqb (con_type c) FOREIGN_KEY.
Ltac now_absent := let Z := fresh in intro Z; vm_compute in Z; repeat (destruct Z as [Z|Z]; [discriminate Z|]); exact Z.
Lemma lite_pair_suitable : lite_suitable lite_before lite_then (as_lite foreign_inline (tables_in lite_before)).
Proof.
  split; [exact lite_before_orderly|]. split; [exact lite_then_orderly|]. split; [exact lite_then_creatable|].
  split; [apply separateb_ok; vm_compute; reflexivity|]. split; [apply freeb_ok; vm_compute; reflexivity|].
  intros s t Hs Ht E. each Hs; each Ht; try discriminate E; clear E; (split; [|split; [|split; [|split]]]).
  all: try (split; [intros p q Hp Hq; each Hp; each Hq; intro E; first [vm_compute in E; discriminate E|repeat split; reflexivity]
                  |intros p q Hp Hq; each Hp; each Hq; intro E; first [discriminate E|reflexivity]]).
  all: try (eexists; split; left; reflexivity).
  all: try (intros c Hc N; each Hc; first [exfalso; apply N; cbn; tauto
    |split; [split; [reflexivity|now_absent]|intro NN; first [discriminate NN|split; discriminate]]]).
  all: try (intros _; left; eexists; split; [do 3 right; left; reflexivity|now_absent]).
  all: try (intros (c & Hc & N); each Hc; exfalso; apply N; cbn; tauto).
  all: intros lt L k n Hk K _ _; vm_compute in L; injection L as <-; each Hk; first [discriminate K|reflexivity].
Qed.
