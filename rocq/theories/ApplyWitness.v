(** Catalogs for the examples of PropApply.v. *)
From Verif Require Import GoStr GoStrFacts ModelCatalog ModelCache ModelDdl ModelDiff ModelDiffSql SpecDiff DiffWitness SpecApply.

Definition pkey_name (d : dialect) (t : bytes) : bytes := match d with MySQL => B"PRIMARY" | _ => t ++ B"_pkey" end.
Definition col (s t n ty : bytes) (notnull : bool) (def : bytes) : column :=
  Column s t n ty [] [] [] [] false notnull false false false [] def false false [] false [] false.
Definition pkey (d : dialect) (s t n : bytes) : constraint := a_key s t (pkey_name d t) PRIMARY_KEY [n].

(** The table genre and a schema disappear; actor loses a column and an index, gains a column, and its
    name must not be NULL any more; film refers to language, a new table, instead of genre, and its titles
    get shorter, unique and a default; there is a new schema with a table that refers to actor. *)
Definition actor1 (d : dialect) : table :=
  a_table (B"db") (B"actor")
    [col (B"db") (B"actor") (B"actor_id") (B"INT") true []; col (B"db") (B"actor") (B"name") (B"VARCHAR(50)") false []; col (B"db") (B"actor") (B"note") (B"TEXT") false []]
    [pkey d (B"db") (B"actor") (B"actor_id")] [an_index (B"db") (B"actor") (B"actor_name_idx") [B"name"]].
Definition film1 (d : dialect) : table :=
  a_table (B"db") (B"film")
    [col (B"db") (B"film") (B"film_id") (B"INT") true []; col (B"db") (B"film") (B"title") (B"VARCHAR(255)") false [];
     col (B"db") (B"film") (B"lead_id") (B"INT") false []; col (B"db") (B"film") (B"genre_id") (B"INT") false []]
    [pkey d (B"db") (B"film") (B"film_id"); a_fkey (B"db") (B"film") (B"film_lead_id_fkey") [B"lead_id"] (B"db") (B"actor") [B"actor_id"];
     a_fkey (B"db") (B"film") (B"film_genre_id_fkey") [B"genre_id"] (B"db") (B"genre") [B"genre_id"]] [].
Definition genre1 (d : dialect) : table :=
  a_table (B"db") (B"genre") [col (B"db") (B"genre") (B"genre_id") (B"INT") true []] [pkey d (B"db") (B"genre") (B"genre_id")] [].
Definition log1 : table := a_table (B"old") (B"log") [col (B"old") (B"log") (B"line") (B"TEXT") false []] [] [].
Definition before_db (d : dialect) : catalog :=
  a_catalog d (B"db") [Schema (B"db") [actor1 d; film1 d; genre1 d] false; Schema (B"old") [log1] false].
Definition film2 (d : dialect) : table :=
  a_table (B"db") (B"film")
    [col (B"db") (B"film") (B"film_id") (B"INT") true []; col (B"db") (B"film") (B"title") (B"VARCHAR(100)") false (B"'untitled'");
     col (B"db") (B"film") (B"lead_id") (B"INT") false []; col (B"db") (B"film") (B"language_id") (B"INT") false []]
    [pkey d (B"db") (B"film") (B"film_id"); a_key (B"db") (B"film") (B"film_title_key") UNIQUE [B"title"];
     a_fkey (B"db") (B"film") (B"film_lead_id_fkey") [B"lead_id"] (B"db") (B"actor") [B"actor_id"];
     a_fkey (B"db") (B"film") (B"film_language_id_fkey") [B"language_id"] (B"db") (B"language") [B"language_id"]]
    [an_index (B"db") (B"film") (B"film_language_id_idx") [B"language_id"]].
Definition actor2 (d : dialect) : table :=
  a_table (B"db") (B"actor")
    [col (B"db") (B"actor") (B"actor_id") (B"INT") true []; col (B"db") (B"actor") (B"name") (B"VARCHAR(50)") true []; col (B"db") (B"actor") (B"born") (B"DATE") false []]
    [pkey d (B"db") (B"actor") (B"actor_id")] [].
Definition language2 (d : dialect) : table :=
  a_table (B"db") (B"language") [col (B"db") (B"language") (B"language_id") (B"INT") true []; col (B"db") (B"language") (B"name") (B"TEXT") false []]
    [pkey d (B"db") (B"language") (B"language_id")] [an_index (B"db") (B"language") (B"language_name_idx") [B"name"]].
Definition award2 (d : dialect) : table :=
  a_table (B"prizes") (B"award") [col (B"prizes") (B"award") (B"award_id") (B"INT") true []; col (B"prizes") (B"award") (B"actor_id") (B"INT") false []]
    [pkey d (B"prizes") (B"award") (B"award_id"); a_fkey (B"prizes") (B"award") (B"award_actor_id_fkey") [B"actor_id"] (B"db") (B"actor") [B"actor_id"]] [].
Definition after_db (d : dialect) : catalog :=
  a_catalog d (B"db") [Schema (B"db") [film2 d; actor2 d; language2 d] false; Schema (B"prizes") [award2 d] false].

(** ** Lists of what is in a catalog *)
Definition places (l : list schema) : list (qname * table) := flat_map (fun s => map (fun t => ((sc_name s, tb_name t), t)) (sc_tables s)) l.
Lemma places_all : forall l q t, located l q t -> In (q, t) (places l).
Proof. intros l q t (s & Hs & Ht & ->). apply in_flat_map. exists s. split; [exact Hs|]. apply in_map_iff. exists t. auto. Qed.
Lemma places_are : forall l q t, In (q, t) (places l) -> located l q t.
Proof.
  intros l q t H. apply in_flat_map in H. destruct H as (s & Hs & H). apply in_map_iff in H. destruct H as (u & E & H). injection E as <- <-. exists s. auto.
Qed.
Definition objects (l : list schema) : list object :=
  flat_map (fun p => OTable (fst p) :: map (OConstraint (fst p)) (tb_constraints (snd p)) ++ map (OIndex (fst p)) (tb_indexes (snd p))) (places l).
Lemma objects_all : forall l o, object_of l o -> In o (objects l).
Proof.
  intros l o H. unfold objects. apply in_flat_map. destruct o as [q|q c|q i]; cbn in H.
  - destruct H as (t & L). exists (q, t). split; [apply places_all; exact L|]. left. reflexivity.
  - destruct H as (t & L & H). exists (q, t). split; [apply places_all; exact L|]. right. apply in_or_app. left. apply in_map. exact H.
  - destruct H as (t & L & H). exists (q, t). split; [apply places_all; exact L|]. right. apply in_or_app. right. apply in_map. exact H.
Qed.
Definition qname_dec (a b : qname) : {a = b} + {a <> b}.
Proof. decide equality; apply bytes_dec. Defined.
Definition entry_dec (a b : entry) : {a = b} + {a <> b}.
Proof. repeat decide equality. Defined.
Definition slot_dec (a b : nat * qname * bytes) : {a = b} + {a <> b}.
Proof. repeat decide equality. Defined.
Definition apart (d : dialect) (l : list object) : bool :=
  forallb (fun o => forallb (fun o' => forallb (fun k => if in_dec entry_dec k (entries_of d o') then (if slot_dec (slot o) (slot o') then true else false) else true) (entries_of d o)) l) l.
Lemma apart_ok : forall d a b, apart d (objects a ++ objects b) = true -> separate d a b.
Proof.
  intros d a b H o o' k Ho Ho' Hk Hk'. unfold apart in H. rewrite forallb_forall in H.
  assert (I1 : forall o, object_of a o \/ object_of b o -> In o (objects a ++ objects b)).
  { intros p [Hp|Hp]; apply in_or_app; [left|right]; apply objects_all; exact Hp. }
  specialize (H o (I1 o Ho)). rewrite forallb_forall in H. specialize (H o' (I1 o' Ho')). rewrite forallb_forall in H. specialize (H k Hk).
  destruct (in_dec entry_dec k (entries_of d o')) as [_|N]; [|contradiction]. destruct (slot_dec (slot o) (slot o')) as [E|]; [exact E|discriminate H].
Qed.

(** ** The catalogs are suitable *)
Definition subject (d : dialect) : Prop := d = MySQL \/ d = Postgres.
Ltac at_places H := apply places_all in H; cbn in H; repeat (destruct H as [H|H]; [injection H as <- <-|]); try contradiction H.
Ltac members H := cbn in H; repeat (destruct H as [H|H]; [rewrite <- H in *; clear H|]); try contradiction H.

Lemma before_orderly : forall d, subject d -> orderly (ct_schemas (before_db d)).
Proof.
  intros d D. split; [split; [split|]|split].
  - apply nodupb_ok. reflexivity.
  - intros s H. each H; (split; [apply nodupb_ok; reflexivity|]; intros t H; each H; reflexivity).
  - intros s t H H'. destruct D as [->| ->]; each H; each H'; repeat split; apply nodupb_ok; reflexivity.
  - intros s H. each H; (split; [discriminate|reflexivity]).
  - intros q t L. destruct D as [->| ->]; at_places L; (split; [reflexivity|]; split; [|split]; intros c Hc; each Hc; repeat split; try reflexivity; discriminate).
Qed.
Lemma after_orderly : forall d, subject d -> orderly (ct_schemas (after_db d)).
Proof.
  intros d D. split; [split; [split|]|split].
  - apply nodupb_ok. reflexivity.
  - intros s H. each H; (split; [apply nodupb_ok; reflexivity|]; intros t H; each H; reflexivity).
  - intros s t H H'. destruct D as [->| ->]; each H; each H'; repeat split; apply nodupb_ok; reflexivity.
  - intros s H. each H; (split; [discriminate|reflexivity]).
  - intros q t L. destruct D as [->| ->]; at_places L; (split; [reflexivity|]; split; [|split]; intros c Hc; each Hc; repeat split; try reflexivity; discriminate).
Qed.
Lemma before_keys : forall d, subject d -> proper_keys (ct_schemas (before_db d)).
Proof.
  intros d D q t L. destruct D as [->| ->]; at_places L; (split; [intros a b Ha Hb Pa Pb; each Ha; each Hb; try discriminate Pa; try discriminate Pb; reflexivity
    |intros k c Hk Pk Hc Hn; each Hk; try discriminate Pk; each Hc; try reflexivity; cbn in Hn; destruct Hn as [Z|[]]; discriminate Z]).
Qed.
Lemma after_keys : forall d, subject d -> proper_keys (ct_schemas (after_db d)).
Proof.
  intros d D q t L. destruct D as [->| ->]; at_places L; (split; [intros a b Ha Hb Pa Pb; each Ha; each Hb; try discriminate Pa; try discriminate Pb; reflexivity
    |intros k c Hk Pk Hc Hn; each Hk; try discriminate Pk; each Hc; try reflexivity; cbn in Hn; destruct Hn as [Z|[]]; discriminate Z]).
Qed.
Definition no_zero (s : bytes) : bool := negb (is_empty s) && forallb (fun c => negb (ceqb c (ascii_of_nat 0))) s.
Lemma no_zero_ok : forall s, no_zero s = true -> s <> [] /\ ~ In (ascii_of_nat 0) s.
Proof.
  intros s H. apply andb_true_iff in H. destruct H as (H1 & H2). rewrite forallb_forall in H2. split; [intros ->; discriminate H1|]. intro Z. discriminate (H2 _ Z).
Qed.
Lemma before_names : forall d, subject d -> plain_names (ct_schemas (before_db d)).
Proof.
  intros d D q t c n L Hc Hn. apply no_zero_ok. destruct D as [->| ->]; at_places L; each Hc; each Hn; reflexivity.
Qed.
Lemma after_names : forall d, subject d -> plain_names (ct_schemas (after_db d)).
Proof.
  intros d D q t c n L Hc Hn. apply no_zero_ok. destruct D as [->| ->]; at_places L; each Hc; each Hn; reflexivity.
Qed.
Lemma before_readable : forall d, subject d -> readable_types d (ct_schemas (before_db d)).
Proof. intros d D s t c H H' H''. destruct D as [->| ->]; each H; each H'; each H''; eexists; vm_compute; reflexivity. Qed.
Lemma after_readable : forall d, subject d -> readable_types d (ct_schemas (after_db d)).
Proof. intros d D s t c H H' H''. destruct D as [->| ->]; each H; each H'; each H''; eexists; vm_compute; reflexivity. Qed.
Definition all_in (l r : list bytes) : bool := forallb (fun n => bmem n r) l.
Lemma all_in_ok : forall l r, all_in l r = true -> forall n, In n l -> In n r.
Proof. intros l r H n Hn. apply bmem_In. unfold all_in in H. rewrite forallb_forall in H. exact (H n Hn). Qed.
Lemma same_set_refl : forall l, same_set l l.
Proof. intros l n. reflexivity. Qed.
(** Foreign keys refer to the primary key of the table at some place of the list. *)
Definition refers (cur : bytes) (l : list schema) (k : constraint) : bool :=
  existsb (fun p => (if qname_dec (fst p) (target cur k) then true else false) && all_in (con_refcolumns k) (map col_name (tb_columns (snd p)))
     && existsb (fun r => is_a_key r && (if list_eq_dec bytes_dec (con_columns r) (con_refcolumns k) then true else false)) (tb_constraints (snd p))) (places l).
Lemma refers_ok : forall cur l k, refers cur l k = true -> exists u r, located l (target cur k) u /\ (forall n, In n (con_refcolumns k) -> In n (map col_name (tb_columns u)))
  /\ In r (tb_constraints u) /\ unique_key r /\ same_set (con_columns r) (con_refcolumns k).
Proof.
  intros cur l k H. unfold refers in H. apply existsb_exists in H. destruct H as ((q & u) & Hp & H). apply andb_true_iff in H. destruct H as (H & H3).
  apply andb_true_iff in H. destruct H as (H1 & H2). cbn [fst snd] in *. apply existsb_exists in H3. destruct H3 as (r & Hr & H3). apply andb_true_iff in H3. destruct H3 as (H3 & H4).
  destruct (qname_dec q (target cur k)) as [E|]; [|discriminate H1]. destruct (list_eq_dec bytes_dec (con_columns r) (con_refcolumns k)) as [E'|]; [|discriminate H4].
  exists u, r. split; [rewrite <- E; apply places_are; exact Hp|]. split; [apply all_in_ok; exact H2|]. split; [exact Hr|]. split; [|rewrite E'; apply same_set_refl].
  unfold is_a_key in H3. apply orb_true_iff in H3. destruct H3 as [H3|H3]; apply beqb_eq in H3; [left|right]; exact H3.
Qed.
Ltac impossible := match goal with X : unique_key _ \/ foreign _ |- _ => destruct X as [[X|X]|X]; discriminate X | X : unique_key _ |- _ => destruct X as [X|X]; discriminate X | X : _ = _ |- _ => discriminate X end.
Ltac column_case := let E := fresh in
  split; [intro E; discriminate E|]; split; [reflexivity|]; split; [intros _; reflexivity|]; split; [intro E; discriminate E|];
  intro E; first [discriminate E|split; [reflexivity|]; let k := fresh in let Hk := fresh in let Z := fresh in intros k Hk; each Hk; intro Z; vm_compute in Z; discriminate Z].
Lemma after_creatable : forall d, subject d -> creatable d (ct_current (before_db d)) (ct_schemas (after_db d)).
Proof.
  intros d D q t L. split; [|split; [|split; [|split; [|split; [|split; [|split]]]]]].
  - at_places L; reflexivity.
  - at_places L; discriminate.
  - intros c Hc. destruct D as [->| ->]; at_places L; each Hc; column_case.
  - intros k Hk U. at_places L; each Hk; (split; [discriminate|apply all_in_ok; reflexivity]).
  - intros k Hk U E. rewrite E in *. at_places L; each Hk; try discriminate U; reflexivity.
  - intros k Hk U E. rewrite E in *. at_places L; each Hk; (split; reflexivity).
  - intros k Hk F. split; [|apply refers_ok]; destruct D as [->| ->]; at_places L; each Hk; try discriminate F; vm_compute; try reflexivity; discriminate.
  - intros i Hi. at_places L; each Hi; (split; [discriminate|]; split; [intros n Hn; left; revert n Hn; apply all_in_ok; reflexivity|intros n []]).
Qed.
(** The tables that stay. *)
Lemma kept_pairs : forall d q s t, located (ct_schemas (before_db d)) q s -> located (ct_schemas (after_db d)) q t ->
  q = (B"db", B"actor") /\ s = actor1 d /\ t = actor2 d \/ q = (B"db", B"film") /\ s = film1 d /\ t = film2 d.
Proof.
  intros d q s t Ls Lt. apply places_all in Ls, Lt. destruct Ls as [E|[E|[E|[E|[]]]]]; injection E as <- <-; destruct Lt as [E|[E|[E|[E|[]]]]]; try discriminate E;
    injection E as <-; [left|right]; auto.
Qed.
Lemma objects_same : forall d, subject d -> same_objects d (ct_current (before_db d)) (ct_schemas (before_db d)) (ct_schemas (after_db d)).
Proof.
  intros d D q s t Ls Lt. destruct (kept_pairs d q s t Ls Lt) as [(_ & -> & ->)|(_ & -> & ->)]; clear; split.
  - intros a b Ha Hb _. each Ha; each Hb. split; [reflexivity|]. split; [left; reflexivity|]. split; [discriminate|]. split; reflexivity.
  - intros i j Hi Hj E. each Hj.
  - intros a b Ha Hb E. each Ha; each Hb; try (destruct d; discriminate E); (split; [reflexivity|]; split; [left; reflexivity|]; split; [intro F; split; reflexivity|]; split; reflexivity).
  - intros i j Hi Hj E. each Hi.
Qed.
Lemma targets_kept : forall d, subject d -> kept_targets (ct_current (before_db d)) (ct_schemas (before_db d)) (ct_schemas (after_db d)).
Proof.
  intros d D q s t f g s' t' k Ls Lt Hf Hg E F Ls' Lt' Hk U SS.
  assert (Z : t' = actor2 d /\ s' = actor1 d).
  { destruct (kept_pairs d _ _ _ Ls' Lt') as [(_ & -> & ->)|(Z & _)]; [auto|]. exfalso. clear Ls' Lt' Hk U SS.
    destruct (kept_pairs d q s t Ls Lt) as [(_ & -> & ->)|(_ & -> & ->)]; each Hg; try discriminate F; discriminate Z. }
  destruct Z as (-> & ->). each Hk. exists (pkey d (B"db") (B"actor") (B"actor_id")). split; [left; reflexivity|]. split; reflexivity.
Qed.
Lemma names_separate : forall d, subject d -> separate d (ct_schemas (before_db d)) (ct_schemas (after_db d)).
Proof. intros d [->| ->]; apply apart_ok; vm_compute; reflexivity. Qed.
Lemma changes_noticed : forall d, noticed (ct_schemas (before_db d)) (ct_schemas (after_db d)).
Proof.
  intros d q s t Ls Lt _. destruct (kept_pairs d q s t Ls Lt) as [(_ & -> & ->)|(_ & -> & ->)]; left; discriminate.
Qed.
Lemma before_owner : forall d, one_owner (ct_schemas (before_db d)).
Proof.
  intros d s t a s' t' b H1 H2 Ha H3 H4 Hb Ta Tb P. each H1; each H2; each Ha; try discriminate Ta; each H3; each H4; each Hb; try discriminate Tb; split; reflexivity.
Qed.
Lemma after_owner : forall d, one_owner (ct_schemas (after_db d)).
Proof.
  intros d s t a s' t' b H1 H2 Ha H3 H4 Hb Ta Tb P. each H1; each H2; each Ha; try discriminate Ta; each H3; each H4; each Hb; try discriminate Tb;
    first [split; reflexivity|vm_compute in P; decompose [and or] P; discriminate].
Qed.
Lemma changes_convertible : forall d flt, all_convertible flt (before_db d) (ct_schemas (before_db d)) (ct_schemas (after_db d)).
Proof.
  intros d flt q s t a b Ls Lt Ha Hb E.
  destruct (kept_pairs d q s t Ls Lt) as [(_ & -> & ->)|(_ & -> & ->)]; clear Ls Lt; each Ha; each Hb; try discriminate E; clear E; unfold convertible; vm_compute;
    (split; [first [left; reflexivity|right; split; [reflexivity|left; reflexivity]]|]; split; [reflexivity|]; split; [left; reflexivity|]; split; [try discriminate; reflexivity|];
     intros _ Z; contradiction Z; reflexivity).
Qed.
Lemma checks_free : forall d, subject d -> free_checks (ct_schemas (before_db d)) (ct_schemas (after_db d)).
Proof.
  intros d D q s t c k Ls Lt Hc Hk. destruct D as [->| ->];
  destruct (kept_pairs _ q s t Ls Lt) as [(_ & -> & ->)|(_ & -> & ->)]; clear Ls Lt; each Hc; each Hk; intro Z; vm_compute in Z; discriminate Z.
Qed.
Theorem both_suitable : forall d flt, subject d -> suitable d flt (before_db d) (after_db d).
Proof.
  intros d flt D.
  refine (conj (conj (before_orderly d D) (after_orderly d D)) (conj (conj (before_keys d D) (after_keys d D)) (conj (conj (before_names d D) (after_names d D))
    (conj (conj (before_readable d D) (after_readable d D)) (conj (after_creatable d D) (conj (objects_same d D) (conj (targets_kept d D) (conj (names_separate d D)
    (conj (changes_noticed d) _))))))))).
  intros _. exact (conj (changes_convertible d flt) (conj (checks_free d D) (conj (before_owner d) (after_owner d)))).
Qed.
