(** C104: WriteCatalog shares nothing between the two catalogs.  C105: WriteCatalog copies everything.  C106: writing
    again changes nothing. *)
From Coq Require Import Lia.
From Verif Require Import GoStr GoStrFacts ModelCatalog ModelCache ModelDeep SpecDeep DeepFacts DeepCopy DeepTwice.

(** ** C104 *)
(** A catalog is written into another one that shares nothing with it; then [src] is as it was and they still share
    nothing. *)
Definition C104_claim (src dest : o_catalog ref) (h : heap) (dest' : o_catalog ref) (h' : heap) : Prop :=
  contents h' src = contents h src /\ sound h' src /\ sound h' dest' /\ independent h' src dest'.
Definition C104_full : Prop := forall src dest h dest' h',
  sound h src -> sound h dest -> (forall i, reaches src i -> ~ reaches dest i) -> write_catalog src dest h = Ok (dest', h') -> C104_claim src dest h dest' h'.

Lemma apart_independent h a b : (forall i, reaches a i -> ~ reaches b i) -> independent h a b.
Proof. intros D. split; intros h' O; apply contents_same; intros i I; apply O; [exact (fun J => D i J I)|exact (D i I)]. Qed.
Lemma reached_small src dest h dest' h' own :
  (forall s v i, In s (og_schemas src) -> In v (os_views s) -> In i (ov_indexes v) -> own (oi_descending i) /\ own (oi_opclasses i)) ->
  write_catalog src dest h = Ok (dest', h') -> forall i, reaches dest' i -> reaches dest i \/ own (Some i) \/ List.length h <= i < List.length h'.
Proof.
  intros O E i R. destruct (written own _ _ _ _ _ O E) as (G & W). destruct (W _ R) as [I|[I|I]]; [left; exact I|right; left; exact I|].
  right. right. exact (I i eq_refl).
Qed.

(** It holds if no index of a view has directions or operator classes, which are the two slices that are not cloned.  Missing: such indexes. *)
Theorem C104_partial : forall src dest h dest' h',
  (forall s v x, In s (og_schemas src) -> In v (os_views s) -> In x (ov_indexes v) -> oi_descending x = None /\ oi_opclasses x = None) ->
  sound h src -> sound h dest -> (forall i, reaches src i -> ~ reaches dest i) -> write_catalog src dest h = Ok (dest', h') -> C104_claim src dest h dest' h'.
Proof.
  intros src dest h dest' h' P S1 S2 D E. pose proof (reached_small src dest h dest' h' (fun r => r = None) P E) as R.
  destruct (written (fun _ => True) src dest h dest' h' (fun _ _ _ _ _ _ => conj Logic.I Logic.I) E) as (G & _). pose proof (grows_length _ _ G) as L.
  split; [apply contents_same; intros i I; apply grows_nth; [exact G|exact (S1 i I)]|]. split; [intros i I; specialize (S1 i I); lia|]. split.
  - intros i I. destruct (R i I) as [J|[J|J]]; [specialize (S2 i J); lia|discriminate J|lia].
  - apply apart_independent. intros i I J. destruct (R i J) as [K|[K|K]]; [exact (D i I K)|discriminate K|]. specialize (S1 i I). lia.
Qed.
(** Nothing else is ever shared. *)
Theorem C104_shared : forall src dest h dest' h' i,
  sound h src -> (forall i, reaches src i -> ~ reaches dest i) -> write_catalog src dest h = Ok (dest', h') -> reaches src i -> reaches dest' i ->
  exists s v x, In s (og_schemas src) /\ In v (os_views s) /\ In x (ov_indexes v) /\ (oi_descending x = Some i \/ oi_opclasses x = Some i).
Proof.
  intros src dest h dest' h' i S D E I J.
  destruct (reached_small src dest h dest' h' (fun r => exists s v x, In s (og_schemas src) /\ In v (os_views s) /\ In x (ov_indexes v) /\ (oi_descending x = r \/ oi_opclasses x = r))) with (i := i) as [K|[K|K]].
  - intros s v x H1 H2 H3. split; exists s, v, x; auto.
  - exact E.
  - exact J.
  - exfalso. exact (D i I K).
  - exact K.
  - specialize (S i I). lia.
Qed.

(** ** C105 *)
(** Writing a catalog to an empty catalog gives a catalog with the same contents. *)
Definition C105_claim (src : o_catalog ref) (h : heap) : Prop :=
  exists dest h', write_catalog src empty_catalog h = Ok (dest, h') /\ contents h' dest = contents h src.
Definition C105_full : Prop := forall src h, sound h src -> distinct_names by_type src -> C105_claim src h.
(** Missing: virtual tables; functions and procedures with the same name; constraints without names, that is those of SQLite. *)
Theorem C105_partial : forall src h, sound h src -> distinct_names by_args src -> all_named src ->
  (forall s t, In s (og_schemas src) -> In t (os_tables s) -> oa_virtual t = false) -> C105_claim src h.
Proof. intros src h S D A V. exact (copied src h S (distinct_places src D A) V). Qed.

(** ** C106 *)
(** Writing a catalog to one that has the same contents, e.g. since it was written to it before, leaves it with these
    contents. *)
Definition C106_claim (src dest : o_catalog ref) (h : heap) : Prop :=
  exists dest' h', write_catalog src dest h = Ok (dest', h') /\ contents h' dest' = contents h src.
Definition C106_full : Prop := forall src dest h, sound h src -> distinct_names by_args src -> contents h dest = contents h src -> C106_claim src dest h.
(** Missing: objects that are ignored, constraints without names, indexes of views that are not materialized and triggers of those that are, and
    routines with arguments if the dialect is not Postgres. *)
Theorem C106_partial : forall src dest h, sound h src -> distinct_names by_args src -> all_named src -> usual_views src -> none_ignored src ->
  contents h dest = contents h src -> C106_claim src dest h.
Proof. exact written_again. Qed.
(** Twice to the same catalog. *)
Theorem C106_twice : forall src h, sound h src -> distinct_names by_args src -> all_named src -> usual_views src -> none_ignored src ->
  (forall s t, In s (og_schemas src) -> In t (os_tables s) -> oa_virtual t = false) ->
  exists dest h' dest' h'', write_catalog src empty_catalog h = Ok (dest, h') /\ write_catalog src dest h' = Ok (dest', h'') /\ contents h'' dest' = contents h src.
Proof.
  intros src h S D A U Ni V. destruct (C105_partial src h S D A V) as (dest & h' & E & C).
  destruct (written (fun _ => True) src _ h dest h' (fun _ _ _ _ _ _ => conj Logic.I Logic.I) E) as (G & _).
  assert (Es : contents h' src = contents h src) by (apply contents_same; intros i I; apply grows_nth; [exact G|exact (S i I)]).
  destruct (C106_partial src dest h') as (dest' & h'' & E' & C'); try assumption.
  - intros i I. specialize (S i I). apply grows_length in G. lia.
  - rewrite Es. exact C.
  - exists dest, h', dest', h''. split; [exact E|]. split; [exact E'|]. rewrite C'. exact Es.
Qed.

(** ** Examples *)
(** A Postgres catalog with an object of each kind. *)
Definition deep_column (n : bytes) : o_column := OColumn (new_column (B"s") (B"t") n (B"INT")) [B"more"].
Definition deep_index (t : bytes) (v : bool) (n : bytes) (desc cls : ref) : o_index ref :=
  OIndex (B"s") t n (B"BTREE") v true (Some 6) (Some 7) desc cls (B"x > 0") (B"CREATE INDEX") (B"c") false.
Definition deep_trigger (t : bytes) (v : bool) (n : bytes) : o_trigger ref := OTrigger (B"s") t n v (B"CREATE TRIGGER") (Some 5) (B"c") false.
Definition deep_table (virtual : bool) : o_table ref :=
  OTable (B"s") (B"t") (B"CREATE TABLE") virtual [deep_column (B"a"); deep_column (B"b")]
    [OConstraint (B"s") (B"t") (B"t_a_fkey") (B"FOREIGN KEY") (Some 6) (B"s") (B"u") (Some 7) (B"CASCADE") [] [] [] None [] [] [true; false] (B"c") false;
     OConstraint (B"s") (B"t") (B"t_a_excl") (B"EXCLUDE") (Some 6) [] [] None [] [] [] [] (Some 7) (B"GIST") (B"a > 0") [] [] false]
    [deep_index (B"t") false (B"i1") (Some 8) (Some 9); deep_index (B"t") false (B"i2") None (Some 9)] [deep_trigger (B"t") false (B"g"); deep_trigger (B"t") false (B"h")] (B"table") false.
Definition deep_catalog (virtual : bool) (desc cls : ref) (kinds : list bytes) : o_catalog ref :=
  OCatalog Postgres (Some 0) (B"db") (B"s") (B"C") (Some 1) (true, true)
    [OSchema (B"s") [deep_table virtual] [OView (B"s") (B"v") true (B"SELECT") (Some 6) (Some 7) (Some 8) [deep_index (B"v") true (B"i1") desc cls] [deep_trigger (B"v") true (B"g")] (B"view") false]
       (map (fun k => ORoutine (B"s") (B"f") (B"x int") k (B"CREATE") (Some 5) (B"c") false) kinds)
       [OEnum (B"s") (B"color") (Some 2) (B"c") false; OEnum (B"s") (B"mood") (Some 2) (B"c") true] [ODomain (B"s") (B"pos") (B"int") [] true (B"1") (Some 3) (Some 4) (B"c") false]
       (true, true, true, true) (B"schema") false;
     OSchema (B"empty") [] [] [] [] [] (false, false, false, false) [] true].
Definition deep_heap : heap :=
  [Ints [14; 2]; Strings [B"hstore"]; Strings [B"red"; B"green"]; Strings [B"pos_check"]; Strings [B"VALUE > 0"]; Pairs [(B"k", B"v")]; Strings [B"a"]; Strings [B"b"]; Bools [true];
   Strings [B"text_ops"]].
Definition soundb (h : heap) (g : o_catalog ref) : bool := forallb (fun r => match r with Some i => i <? List.length h | None => true end) (slots g).
Lemma soundb_ok h g : soundb h g = true -> sound h g.
Proof. unfold soundb. rewrite forallb_forall. intros H i I. specialize (H _ I). apply Nat.ltb_lt. exact H. Qed.
Ltac one_of_these := repeat match goal with H : _ \/ _ |- _ => destruct H as [H|H] | H : False |- _ => destruct H | H : In _ _ |- _ => progress cbn in H end.
Ltac all_different := cbn; repeat (apply NoDup_cons; [cbn; intros ?; one_of_these; discriminate|]); try apply NoDup_nil.
Lemma deep_names virtual desc cls kinds : kinds = [B"FUNCTION"] -> distinct_names by_args (deep_catalog virtual desc cls kinds).
Proof.
  intros ->. split.
  - all_different.
  - intros s I; one_of_these; subst; all_different.
  - intros s I; one_of_these; subst; all_different.
  - intros s I; one_of_these; subst; all_different.
  - intros s I; one_of_these; subst; all_different.
  - intros s v I J; one_of_these; subst; cbn in J; one_of_these; subst; split; all_different.
  - intros s v I J; one_of_these; subst; cbn in J; one_of_these; subst; repeat split; all_different.
  - intros s I; one_of_these; subst; cbn; split; intros x J; one_of_these; subst; reflexivity.
Qed.
Lemma deep_names_type virtual desc cls kinds : kinds = [B"FUNCTION"; B"PROCEDURE"] -> distinct_names by_type (deep_catalog virtual desc cls kinds).
Proof.
  intros ->. split.
  - all_different.
  - intros s I; one_of_these; subst; all_different.
  - intros s I; one_of_these; subst; all_different.
  - intros s I; one_of_these; subst; all_different.
  - intros s I; one_of_these; subst; all_different.
  - intros s v I J; one_of_these; subst; cbn in J; one_of_these; subst; split; all_different.
  - intros s v I J; one_of_these; subst; cbn in J; one_of_these; subst; repeat split; all_different.
  - intros s I; one_of_these; subst; cbn; split; intros x J; one_of_these; subst; reflexivity.
Qed.
Lemma deep_named virtual desc cls kinds : all_named (deep_catalog virtual desc cls kinds).
Proof. intros s t c I J K. one_of_these; subst; cbn in J; one_of_these; subst; cbn in K; one_of_these; subst; discriminate. Qed.
Lemma args_then_type {R} (g : o_catalog R) : distinct_names by_args g -> distinct_names by_type g.
Proof.
  intros [H1 H2 H3 H4 H5 H6 H7 H8]. split; try assumption. intros s I. specialize (H4 s I).
  apply (NoDup_map_inv (fun p : bytes * bytes * bytes => (snd (fst p), snd p))). rewrite map_map. exact H4.
Qed.

Lemma set_nth_only {A} i (a : A) : forall l j, i <> j -> nth_error (set_nth i a l) j = nth_error l j.
Proof. induction i as [|i IH]; intros [|x l] [|j] N; try reflexivity; [contradiction|]. cbn [set_nth nth_error]. apply IH. congruence. Qed.
(** The directions of an index of a materialized view are shared: changing them in the original changes the copy. *)
Theorem C104_refuted : ~ C104_full.
Proof.
  intros F. set (src := deep_catalog false (Some 8) None [B"FUNCTION"]).
  destruct (write_catalog src empty_catalog deep_heap) as [[dest h']| |] eqn:E; [|vm_compute in E; discriminate E|vm_compute in E; discriminate E].
  destruct (F src empty_catalog deep_heap dest h') as (_ & _ & _ & D & _).
  - apply soundb_ok. vm_compute. reflexivity.
  - apply soundb_ok. vm_compute. reflexivity.
  - intros i _ R. cbn in R. one_of_these; discriminate.
  - exact E.
  - assert (O : only_in src h' (set_nth 8 (Bools [false]) h')).
    { intros i N. apply set_nth_only. intros <-. apply N. unfold reaches. vm_compute. tauto. }
    specialize (D _ O). clear O. vm_compute in E. injection E as <- <-. vm_compute in D. discriminate D.
Qed.
(** The fact that a table is virtual is lost. *)
Theorem C105_virtual : exists src h, sound h src /\ distinct_names by_args src /\ all_named src /\ ~ C105_claim src h.
Proof.
  exists (deep_catalog true None None [B"FUNCTION"]), deep_heap. split; [apply soundb_ok; vm_compute; reflexivity|]. split; [apply deep_names; reflexivity|].
  split; [apply deep_named|]. intros (dest & h' & E & C). vm_compute in E. injection E as <- <-. vm_compute in C. discriminate C.
Qed.
(** Of a function and a procedure with the same name, which MySQL allows, only the latter is left. *)
Theorem C105_merged : exists src h, sound h src /\ distinct_names by_type src /\ all_named src /\ (forall s t, In s (og_schemas src) -> In t (os_tables s) -> oa_virtual t = false) /\ ~ C105_claim src h.
Proof.
  exists (deep_catalog false None None [B"FUNCTION"; B"PROCEDURE"]), deep_heap. split; [apply soundb_ok; vm_compute; reflexivity|]. split; [apply deep_names_type; reflexivity|]. split; [apply deep_named|].
  split; [intros s t I J; one_of_these; subst; cbn in J; one_of_these; subst; reflexivity|].
  intros (dest & h' & E & C). vm_compute in E. injection E as <- <-. vm_compute in C. discriminate C.
Qed.
(** Of the constraints of a table that was read from SQLite only the last one is left. *)
Definition lite_constraint (ty : bytes) (cols : ref) : o_constraint ref := OConstraint [] (B"t") [] ty cols [] [] None [] [] [] [] None [] [] [] [] false.
Definition lite_catalog : o_catalog ref :=
  OCatalog SQLite None [] [] [] None (true, true)
    [OSchema [] [OTable [] (B"t") (B"CREATE TABLE t (a INT PRIMARY KEY, b INT UNIQUE)") false [] [lite_constraint (B"PRIMARY KEY") (Some 0); lite_constraint (B"UNIQUE") (Some 1)] [] [] [] false]
       [] [] [] [] (true, true, true, true) [] false].
Theorem C105_unnamed : sound [Strings [B"a"]; Strings [B"b"]] lite_catalog /\ distinct_names by_args lite_catalog
  /\ (forall s t, In s (og_schemas lite_catalog) -> In t (os_tables s) -> oa_virtual t = false)
  /\ exists dest h', write_catalog lite_catalog empty_catalog [Strings [B"a"]; Strings [B"b"]] = Ok (dest, h')
      /\ map (fun s => map (fun t => map ok_type (oa_constraints t)) (os_tables s)) (og_schemas dest) = [[[B"UNIQUE"]]].
Proof.
  split; [apply soundb_ok; vm_compute; reflexivity|]. split.
  { split.
    - all_different.
    - intros s I; one_of_these; subst; all_different.
    - intros s I; one_of_these; subst; all_different.
    - intros s I; one_of_these; subst; all_different.
    - intros s I; one_of_these; subst; all_different.
    - intros s v I J; one_of_these; subst; cbn in J; one_of_these; subst; split; all_different.
    - intros s v I J; one_of_these; subst; cbn in J; one_of_these; subst; repeat split; all_different.
    - intros s I; one_of_these; subst; cbn; split; intros x J; one_of_these; subst; reflexivity. }
  split; [intros s t I J; one_of_these; subst; cbn in J; one_of_these; subst; reflexivity|]. eexists _, _. split; vm_compute; reflexivity.
Qed.
Theorem C105_refuted : ~ C105_full.
Proof. intros F. destruct C105_virtual as (src & h & S & D & _ & N). exact (N (F src h S (args_then_type src D))). Qed.

(** An object of each kind; nothing is shared and everything is copied. *)
Example C104_example : forall dest h', write_catalog (deep_catalog false None None [B"FUNCTION"]) empty_catalog deep_heap = Ok (dest, h') ->
  C104_claim (deep_catalog false None None [B"FUNCTION"]) empty_catalog deep_heap dest h'.
Proof.
  intros dest h'. apply C104_partial.
  - intros s v x I J K; one_of_these; subst; cbn in J; one_of_these; subst; cbn in K; one_of_these; subst; split; reflexivity.
  - apply soundb_ok. vm_compute. reflexivity.
  - apply soundb_ok. vm_compute. reflexivity.
  - intros i _ R. cbn in R. one_of_these; discriminate.
Qed.
Example C105_example : C105_claim (deep_catalog false (Some 8) (Some 9) [B"FUNCTION"]) deep_heap.
Proof.
  apply C105_partial; [apply soundb_ok; vm_compute; reflexivity|apply deep_names; reflexivity|apply deep_named|].
  intros s t I J; one_of_these; subst; cbn in J; one_of_these; subst; reflexivity.
Qed.

(** ** What is doubled *)
Definition twice_catalog (d : dialect) (materialized ignored : bool) (args : bytes) (constraint : bytes) : o_catalog ref :=
  OCatalog d (Some 0) (B"db") (B"s") (B"C") (Some 1) (true, true)
    [OSchema (B"s")
       [OTable (B"s") (B"t") (B"CREATE TABLE") false [deep_column (B"a"); deep_column (B"b")]
          [OConstraint (B"s") (B"t") constraint (B"UNIQUE") (Some 6) [] [] None [] [] [] [] None [] [] [false; false] [] false] [deep_index (B"t") false (B"i1") (Some 8) (Some 9)] [deep_trigger (B"t") false (B"g")] [] false;
        OTable (B"s") (B"u") (B"CREATE TABLE") true [] [] [] [] [] false]
       [OView (B"s") (B"v") materialized (B"SELECT") (Some 6) (Some 7) (Some 8) [deep_index (B"v") true (B"i1") (Some 8) None] [] (B"view") false]
       [ORoutine (B"s") (B"f") args (B"FUNCTION") (B"CREATE") (Some 5) (B"c") false]
       [OEnum (B"s") (B"color") (Some 2) (B"c") false; OEnum (B"s") (B"mood") (Some 2) (B"c") ignored] [ODomain (B"s") (B"pos") (B"int") [] true (B"1") (Some 3) (Some 4) (B"c") false]
       (true, true, true, true) (B"schema") false].
Lemma twice_names d materialized ignored args constraint : distinct_names by_args (twice_catalog d materialized ignored args constraint).
Proof.
  split.
  - all_different.
  - intros s I; one_of_these; subst; all_different.
  - intros s I; one_of_these; subst; all_different.
  - intros s I; one_of_these; subst; all_different.
  - intros s I; one_of_these; subst; all_different.
  - intros s v I J; one_of_these; subst; cbn in J; one_of_these; subst; split; all_different.
  - intros s v I J; one_of_these; subst; cbn in J; one_of_these; subst; repeat split; try solve [all_different]. destruct constraint; all_different.
  - intros s I; one_of_these; subst; cbn; split; intros x J; one_of_these; subst; reflexivity.
Qed.
Lemma twice_sound d materialized ignored args constraint : sound deep_heap (twice_catalog d materialized ignored args constraint).
Proof. apply soundb_ok. reflexivity. Qed.
Lemma twice_named d materialized ignored args constraint : constraint <> [] -> all_named (twice_catalog d materialized ignored args constraint).
Proof. intros N s t c I J K. one_of_these; subst; cbn in J; one_of_these; subst; cbn in K; one_of_these; subst; exact N. Qed.
Lemma twice_usual d ignored args constraint : d = Postgres \/ args = [] -> usual_views (twice_catalog d true ignored args constraint).
Proof.
  intros N. split; intros s x I J; revert N; one_of_these; subst; cbn in J; one_of_these; subst; intros N; [reflexivity|exact N].
Qed.
Lemma twice_regarded d materialized args constraint : none_ignored (twice_catalog d materialized false args constraint).
Proof.
  split.
  - intros s I; one_of_these; subst; reflexivity.
  - intros s x I J; one_of_these; subst; cbn in J; one_of_these; subst; reflexivity.
  - intros s x I J; one_of_these; subst; cbn in J; one_of_these; subst; reflexivity.
  - intros s x I J; one_of_these; subst; cbn in J; one_of_these; subst; reflexivity.
  - intros s x I J; one_of_these; subst; cbn in J; one_of_these; subst; (split; [reflexivity|]; split; intros y K; cbn in K; one_of_these; subst; reflexivity).
  - intros s x I J; one_of_these; subst; cbn in J; one_of_these; subst; (split; [reflexivity|]; repeat split; intros y K; cbn in K; one_of_these; subst; reflexivity).
Qed.
Example C106_example : C106_claim (twice_catalog Postgres true false (B"x int") (B"key")) (twice_catalog Postgres true false (B"x int") (B"key")) deep_heap.
Proof.
  apply C106_partial; [apply twice_sound|apply twice_names|apply twice_named; discriminate|apply twice_usual; left; reflexivity|apply twice_regarded|reflexivity].
Qed.
(** An enum that is ignored, a constraint of SQLite, an index of a view of SQL Server (whose views are never taken for materialized) and a
    routine with arguments of another dialect are there twice in the end. *)
Definition counts (g : o_catalog ref) : list (nat * list nat * list nat * nat) :=
  map (fun s => (List.length (os_enums s), map (fun t => List.length (oa_constraints t)) (os_tables s), map (fun v => List.length (ov_indexes v)) (os_views s), List.length (os_routines s))) (og_schemas g).
Definition counts_again (src : o_catalog ref) : option (list (nat * list nat * list nat * nat)) :=
  match write_catalog src src deep_heap with Ok (dest, _) => Some (counts dest) | _ => None end.
Theorem C106_doubled :
  counts (twice_catalog Postgres true true [] (B"key")) = [(2, [1; 0], [1], 1)]
  /\ counts_again (twice_catalog Postgres true true [] (B"key")) = Some [(3, [1; 0], [1], 1)]
  /\ counts_again (twice_catalog SQLite true false [] []) = Some [(2, [2; 0], [1], 1)]
  /\ counts_again (twice_catalog SQLServer false false [] (B"key")) = Some [(2, [1; 0], [2], 1)]
  /\ counts_again (twice_catalog MySQL true false (B"x int") (B"key")) = Some [(2, [1; 0], [1], 2)]
  /\ counts_again (twice_catalog MySQL true false [] (B"key")) = Some [(2, [1; 0], [1], 1)].
Proof. repeat split; vm_compute; reflexivity. Qed.
Theorem C106_refuted : ~ C106_full.
Proof.
  intros F. destruct (F (twice_catalog SQLServer false false [] (B"key")) (twice_catalog SQLServer false false [] (B"key")) deep_heap (twice_sound _ _ _ _ _) (twice_names _ _ _ _ _) eq_refl) as (dest & h' & E & C).
  vm_compute in E. injection E as <- <-. vm_compute in C. discriminate C.
Qed.
(** Writing to the copy once more; the heap has grown again. *)
Example C104_again : match write_catalog (deep_catalog false None None [B"FUNCTION"]) empty_catalog deep_heap with
  | Ok (dest, h') => match write_catalog (deep_catalog false None None [B"FUNCTION"]) dest h' with Ok (dest', h'') => List.length deep_heap <? List.length h'' | _ => false end
  | _ => false end = true.
Proof. vm_compute. reflexivity. Qed.
Print Assumptions C104_partial.
Print Assumptions C104_shared.
Print Assumptions C104_refuted.
Print Assumptions C105_partial.
Print Assumptions C105_virtual.
Print Assumptions C105_merged.
Print Assumptions C105_unnamed.
Print Assumptions C105_refuted.
Print Assumptions C106_partial.
Print Assumptions C106_twice.
Print Assumptions C106_doubled.
Print Assumptions C106_refuted.
