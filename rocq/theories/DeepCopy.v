(** Facts for C105: what is copied into an empty catalog. *)
From Coq Require Import Lia.
From Verif Require Import GoStr GoStrFacts ModelCatalog ModelCache CacheFacts ModelDeep SpecDeep DeepFacts.

(** ** The keys of a catalog *)
Definition place := (kind * key)%type.
Definition enum_places (s : bytes) (x : o_enum ref) : list place := [(KEnum, [s; oe_name x])].
Definition domain_places (s : bytes) (x : o_domain ref) : list place := [(KDomain, [s; od_name x])].
Definition routine_places (s : bytes) (x : o_routine ref) : list place := [(KRoutine, [s; or_name x; or_args x])].
Definition trigger_places (s t : bytes) (x : o_trigger ref) : list place := [(KTrigger, [s; t; ot_name x])].
Definition index_places (s t : bytes) (x : o_index ref) : list place := [(KIndex, [s; t; oi_name x])].
Definition column_places (s t : bytes) (x : o_column) : list place := [(KColumn, [s; t; col_name (oc_column x)])].
Definition constraint_places (s t : bytes) (x : o_constraint ref) : list place := [(KConstraint, [s; t; ok_name x])].
Definition view_places (s : bytes) (x : o_view ref) : list place :=
  (KView, [s; ov_name x]) :: flat_map (index_places (ov_schema x) (ov_name x)) (ov_indexes x) ++ flat_map (trigger_places (ov_schema x) (ov_name x)) (ov_triggers x).
Definition table_places (s : bytes) (x : o_table ref) : list place :=
  (KTable, [s; oa_name x]) :: flat_map (column_places (oa_schema x) (oa_name x)) (oa_columns x) ++ flat_map (constraint_places (oa_schema x) (oa_name x)) (oa_constraints x)
    ++ flat_map (index_places (oa_schema x) (oa_name x)) (oa_indexes x) ++ flat_map (trigger_places (oa_schema x) (oa_name x)) (oa_triggers x).
Definition schema_places (x : o_schema ref) : list place :=
  (KSchema, [os_name x]) :: flat_map (enum_places (os_name x)) (os_enums x) ++ flat_map (domain_places (os_name x)) (os_domains x)
    ++ flat_map (routine_places (os_name x)) (os_routines x) ++ flat_map (view_places (os_name x)) (os_views x) ++ flat_map (table_places (os_name x)) (os_tables x).
Definition places (g : o_catalog ref) : list place := flat_map schema_places (og_schemas g).

Lemma kindb_spec a b : kindb a b = true <-> a = b.
Proof. split; [destruct a, b; cbn; congruence|intros ->; destruct b; reflexivity]. Qed.
Definition at_place (c : where_kept) (q : place) : option nat := c (fst q) (snd q).
Lemma keep_other c k x i q : q <> (k, x) -> at_place (keep c k x i) q = at_place c q.
Proof.
  destruct q as [k' x']. intros N. unfold at_place, keep. cbn [fst snd]. destruct (kindb k k') eqn:K; [|reflexivity]. apply kindb_spec in K. subst k'.
  unfold upd. destruct (keqb x x') eqn:X; [|reflexivity]. apply cache_key_eq in X. congruence.
Qed.
Lemma put_new {A} k x ignored (new : A) fill l c h : c k x = None ->
  put k x ignored new fill l (c, h) = bindr (fill new (keep c k x (List.length l), h)) (fun '(a, st) => Ok (l ++ [a], st)).
Proof.
  intros E. unfold put, get_or_create. cbn [fst snd]. rewrite E. cbn [at_pos bindr]. rewrite nth_last.
  destruct (fill new (keep c k x (List.length l), h)) as [[a st]| |]; [|reflexivity|reflexivity]. cbn [bindr]. rewrite set_nth_last. reflexivity.
Qed.

Section Copying.
Context (h0 : heap).
Definition valid (r : ref) : Prop := forall i, r = Some i -> i < List.length h0.
Definition all_valid (l : list ref) : Prop := forall r, In r l -> valid r.
Lemma look_valid h r : grows h0 h -> valid r -> look h r = look h0 r.
Proof. intros G V. destruct r as [i|]; [|reflexivity]. cbn [look]. apply grows_nth; [exact G|]. apply V. reflexivity. Qed.
(** The reference can be used from now on in place of [r]. *)
Definition stands_for (h : heap) (r' r : ref) : Prop := forall h', grows h h' -> look h' r' = look h0 r.
Lemma stands_later h1 h2 r' r : grows h1 h2 -> stands_for h1 r' r -> stands_for h2 r' r.
Proof. intros G S h' G'. apply S. exact (grows_trans _ _ _ G G'). Qed.
Lemma clone_stands h r h' r' : grows h0 h -> valid r -> clone h r = (h', r') -> grows h h' /\ stands_for h' r' r.
Proof.
  intros G V E. destruct (clone_fresh _ _ _ _ E) as (G' & _). split; [exact G'|]. unfold clone in E. destruct r as [i|].
  - specialize (V i eq_refl). pose proof (grows_length _ _ G) as L. destruct (nth_error h i) as [c|] eqn:N; [|apply nth_error_None in N; lia]. injection E as <- <-.
    intros h2 G2. cbn [look]. rewrite (grows_nth _ _ (List.length h) G2) by (rewrite app_length; cbn; lia). rewrite nth_last. rewrite <- N. apply grows_nth; [exact G|exact V].
  - injection E as <- <-. intros h2 _. reflexivity.
Qed.
Lemma same_stands h r : grows h0 h -> valid r -> stands_for h r r.
Proof. intros G V h' G'. apply look_valid; [exact (grows_trans _ _ _ G G')|exact V]. Qed.

(** The step adds a copy of [x]; it enters [K] in the cache. *)
Definition copies {A C} (as_ : (ref -> option cell) -> A -> C) (step : list A -> ModelDeep.state -> result (list A * ModelDeep.state)) (x : A) (K : list place) : Prop :=
  forall l c h, grows h0 h -> (forall q, In q K -> at_place c q = None) ->
    exists a c' h', step l (c, h) = Ok (l ++ [a], (c', h')) /\ grows h h' /\ (forall h'', grows h' h'' -> as_ (look h'') a = as_ (look h0) x)
      /\ forall q, ~ In q K -> at_place c' q = at_place c q.
Definition copies_all {A C} (as_ : (ref -> option cell) -> A -> C) (step : list A -> ModelDeep.state -> result (list A * ModelDeep.state)) (xs : list A) (K : list place) : Prop :=
  forall l c h, grows h0 h -> (forall q, In q K -> at_place c q = None) ->
    exists as' c' h', step l (c, h) = Ok (l ++ as', (c', h')) /\ grows h h' /\ (forall h'', grows h' h'' -> map (as_ (look h'')) as' = map (as_ (look h0)) xs)
      /\ forall q, ~ In q K -> at_place c' q = at_place c q.
Lemma nodup_apart {A} (l l' : list A) : NoDup (l ++ l') -> NoDup l /\ NoDup l' /\ forall a, In a l -> ~ In a l'.
Proof.
  induction l as [|x l IH]; cbn [app]; intros N; [split; [apply NoDup_nil|]; split; [exact N|]; intros a []|]. inversion N as [|y m N1 N2]; subst. destruct (IH N2) as (H1 & H2 & H3).
  split; [apply NoDup_cons; [|exact H1]; intros I; apply N1; apply in_or_app; left; exact I|]. split; [exact H2|]. intros a [<-|I]; [|exact (H3 a I)].
  intros J. apply N1. apply in_or_app. right. exact J.
Qed.
Lemma put_all_copies {A C} (as_ : (ref -> option cell) -> A -> C) step (keys : A -> list place) from :
  (forall a, In a from -> copies as_ (step a) a (keys a)) -> NoDup (flat_map keys from) -> copies_all as_ (put_all step from) from (flat_map keys from).
Proof.
  induction from as [|a from IH]; intros H N l c h G U.
  - exists [], c, h. cbn [put_all]. rewrite app_nil_r. split; [reflexivity|]. split; [apply grows_refl|]. split; [reflexivity|]. reflexivity.
  - cbn [flat_map] in N, U. destruct (nodup_apart _ _ N) as (_ & N2 & N3).
    destruct (H a (or_introl eq_refl) l c h G (fun q I => U q (in_or_app _ _ _ (or_introl I)))) as (x & c1 & h1 & E1 & G1 & S1 & U1).
    destruct (IH (fun b I => H b (or_intror I)) N2 (l ++ [x]) c1 h1 (grows_trans _ _ _ G G1)) as (xs & c2 & h2 & E2 & G2 & S2 & U2).
    { intros q I. rewrite U1 by (intros J; exact (N3 q J I)). apply U. apply in_or_app. right. exact I. }
    exists (x :: xs), c2, h2. cbn [put_all]. rewrite E1. cbn [bindr]. rewrite E2, <- app_assoc. split; [reflexivity|]. split; [exact (grows_trans _ _ _ G1 G2)|]. split.
    + intros h3 G3. cbn [map]. f_equal; [exact (S1 h3 (grows_trans _ _ _ G2 G3))|exact (S2 h3 G3)].
    + intros q I. cbn [flat_map] in I. rewrite U2 by (intros J; apply I; apply in_or_app; right; exact J). apply U1. intros J. apply I. apply in_or_app. left. exact J.
Qed.
Ltac is_valid := match goal with V : all_valid ?l |- valid ?r => apply V; cbn; tauto end.
Ltac grown := repeat match goal with G : grows ?a ?b |- grows ?a ?c => first [exact G|apply (grows_trans _ _ _ G); clear G] end; try apply grows_refl.
Ltac clonings :=
  repeat match goal with
         | |- context [clone ?h ?r] => let h' := fresh "h" in let r' := fresh "r" in let C := fresh "C" in destruct (clone h r) as [h' r'] eqn:C;
             apply clone_stands in C as (?Gr & ?Sr); [|grown|is_valid]
         end.
Ltac stands := repeat match goal with S : stands_for ?h ?r' ?r |- context [look ?h' ?r'] => rewrite (S h') by grown; clear S end.
Ltac leaf U :=
  rewrite put_new by (exact (U _ (or_introl eq_refl))); cbn beta iota; clonings; cbn [bindr]; eexists _, _, _; split; [reflexivity|]; split; [grown|]; split;
  [intros h'' G''; unfold enum_with, domain_with, routine_with, trigger_with, index_with, constraint_with; cbn [oe_labels od_checknames od_checkexprs or_attrs ot_attrs oi_columns oi_include oi_descending oi_opclasses ok_columns ok_refcolumns ok_operators]; stands; reflexivity|];
  intros q I; apply keep_other; intros E; apply I; left; symmetry; exact E.
Lemma copies_enum s x : all_valid (enum_slots x) -> copies enum_with (put_enum s x) x (enum_places s x).
Proof. intros V l c h G U. unfold put_enum. leaf U. Qed.
Lemma copies_domain s x : all_valid (domain_slots x) -> copies domain_with (put_domain s x) x (domain_places s x).
Proof. intros V l c h G U. unfold put_domain. leaf U. Qed.
Lemma copies_routine s x : all_valid (routine_slots x) -> copies routine_with (put_routine s x) x (routine_places s x).
Proof. intros V l c h G U. unfold put_routine. leaf U. Qed.
Lemma copies_trigger s t x : all_valid (trigger_slots x) -> copies trigger_with (put_trigger s t x) x (trigger_places s t x).
Proof. intros V l c h G U. unfold put_trigger. leaf U. Qed.
Lemma copies_index s t x : all_valid (index_slots x) -> copies index_with (put_index s t x) x (index_places s t x).
Proof. intros V l c h G U. unfold put_index. leaf U. Qed.
Lemma copies_constraint s t x : all_valid (constraint_slots x) -> copies constraint_with (put_constraint s t x) x (constraint_places s t x).
Proof. intros V l c h G U. unfold put_constraint. leaf U. Qed.
Lemma copies_view_index s t x : all_valid (index_slots x) -> copies index_with (put_view_index s t x) x (index_places s t x).
Proof.
  intros V l c h G U. unfold put_view_index. rewrite put_new by (exact (U _ (or_introl eq_refl))). cbn beta iota. clonings. cbn [bindr]. eexists _, _, _; split; [reflexivity|]. split; [grown|]. split.
  - intros h'' G''. unfold index_with. cbn [oi_columns oi_include oi_descending oi_opclasses]. stands.
    rewrite (look_valid h'' (oi_descending x)), (look_valid h'' (oi_opclasses x)); [reflexivity|grown|is_valid|grown|is_valid].
  - intros q I. apply keep_other. intros E. apply I. left. symmetry. exact E.
Qed.
Lemma copies_column s t x : copies (fun _ y => y) (put_column s t x) x (column_places s t x).
Proof.
  intros l c h G U. unfold put_column. rewrite put_new by (exact (U _ (or_introl eq_refl))). cbn [bindr]. eexists _, _, _; split; [reflexivity|]. split; [apply grows_refl|]. split; [reflexivity|].
  intros q I. apply keep_other. intros E. apply I. left. symmetry. exact E.
Qed.
Lemma part_valid {A} (get : A -> list ref) l a rest : all_valid (flat_map get l ++ rest) -> In a l -> all_valid (get a).
Proof. intros V I r J. apply V. apply in_or_app. left. apply in_flat_map. exists a. auto. Qed.
Lemma rest_valid l rest : all_valid (l ++ rest) -> all_valid rest.
Proof. intros V r J. apply V. apply in_or_app. right. exact J. Qed.
(** The places of the parts are free if those of the whole are, and after the parts before have been copied. *)
Lemma places_after (c c' : where_kept) K1 K2 : (forall q, In q (K1 ++ K2) -> at_place c q = None) -> (forall q, ~ In q K1 -> at_place c' q = at_place c q) -> (forall q, In q K1 -> ~ In q K2) ->
  forall q, In q K2 -> at_place c' q = None.
Proof. intros U U' D q I. rewrite U'; [apply U; apply in_or_app; right; exact I|]. intros J. exact (D q J I). Qed.
Lemma places_here (c : where_kept) K1 K2 : (forall q, In q (K1 ++ K2) -> at_place c q = None) -> forall q, In q K1 -> at_place c q = None.
Proof. intros U q I. apply U. apply in_or_app. left. exact I. Qed.
(** Two in sequence. *)
Lemma in_sequence {A1 C1} (as1 : (ref -> option cell) -> A1 -> C1) step1 xs1 K1 K2 c h :
  copies_all as1 step1 xs1 K1 -> NoDup (K1 ++ K2) -> grows h0 h -> (forall q, In q (K1 ++ K2) -> at_place c q = None) ->
  exists l' c' h', step1 [] (c, h) = Ok (l', (c', h')) /\ grows h h' /\ grows h0 h' /\ (forall h'', grows h' h'' -> map (as1 (look h'')) l' = map (as1 (look h0)) xs1)
    /\ (forall q, In q K2 -> at_place c' q = None) /\ (forall q, ~ In q K1 -> at_place c' q = at_place c q).
Proof.
  intros H N G U. destruct (H [] c h G (places_here _ _ _ U)) as (l' & c' & h' & E & G' & S & U'). exists l', c', h'. split; [exact E|]. split; [exact G'|]. split; [exact (grows_trans _ _ _ G G')|].
  split; [exact S|]. split; [|exact U']. destruct (nodup_apart _ _ N) as (_ & _ & D). exact (places_after _ _ _ _ U U' D).
Qed.
Lemma keep_free c k x i K : NoDup ((k, x) :: K) -> (forall q, In q ((k, x) :: K) -> at_place c q = None) -> forall q, In q K -> at_place (keep c k x i) q = None.
Proof. intros N U q I. inversion N; subst. rewrite keep_other; [apply U; right; exact I|]. intros ->. contradiction. Qed.
Lemma copies_view s x : all_valid (view_slots x) -> NoDup (view_places s x) -> copies view_with (put_view s x) x (view_places s x).
Proof.
  intros V N l c h G U. unfold put_view. rewrite put_new by (exact (U _ (or_introl eq_refl))). cbn beta iota.
  assert (V1 : all_valid [ov_columns x; ov_types x; ov_enums x]) by (intros r I; apply V; apply in_or_app; left; exact I). apply rest_valid in V as V2.
  pose proof (keep_free _ _ _ (List.length l) _ N U) as U2. inversion N as [|? ? N1 N2]; subst. clear V. clonings. clear N.
  match goal with |- context [put_all _ _ _ (_, ?hh)] => assert (G2 : grows h0 hh) by grown end.
  pose proof (put_all_copies _ _ _ _ (fun i I => copies_view_index (ov_schema x) (ov_name x) i (part_valid index_slots _ _ _ V2 I)) (proj1 (nodup_apart _ _ N2))) as H1.
  apply rest_valid in V2 as V3. rewrite <- (app_nil_r (flat_map trigger_slots _)) in V3.
  pose proof (put_all_copies _ _ _ _ (fun i I => copies_trigger (ov_schema x) (ov_name x) i (part_valid trigger_slots _ _ _ V3 I)) (proj1 (proj2 (nodup_apart _ _ N2)))) as H2.
  destruct (in_sequence _ _ _ _ _ _ _ H1 N2 G2 U2) as (l1 & c1 & h1' & E1 & Gs1 & G3 & S1 & U3 & W1). cbn [ov_indexes ov_triggers]. change (option nat) with ref. rewrite E1. cbn [bindr].
  destruct (H2 [] c1 h1' G3 U3) as (l2 & c2 & h2' & E2 & Gs2 & S2 & W2). rewrite E2. cbn [bindr app].
  eexists _, _, _. split; [reflexivity|]. split; [grown|]. split.
  - intros h'' G''. unfold view_with. cbn [ov_columns ov_types ov_enums ov_indexes ov_triggers]. rewrite (S1 h'' (grows_trans _ _ _ Gs2 G'')), (S2 h'' G''). stands. reflexivity.
  - intros q I. rewrite W2, W1, keep_other; [reflexivity| | |]; intros J; apply I; [left; symmetry; exact J|right; apply in_or_app; left; exact J|right; apply in_or_app; right; exact J].
Qed.
Lemma copies_table s x : all_valid (table_slots x) -> NoDup (table_places s x) -> oa_virtual x = false -> copies table_with (put_table s x) x (table_places s x).
Proof.
  intros V N Vt l c h G U. unfold put_table. rewrite put_new by (exact (U _ (or_introl eq_refl))). cbn beta iota.
  pose proof (keep_free _ _ _ (List.length l) _ N U) as U2. inversion N as [|? ? N1 N2]; subst. clear N U.
  pose proof (nodup_apart _ _ N2) as (M1 & N3 & _). pose proof (nodup_apart _ _ N3) as (M2 & N4 & _). pose proof (nodup_apart _ _ N4) as (M3 & M4 & _).
  pose proof (put_all_copies _ _ _ _ (fun i _ => copies_column (oa_schema x) (oa_name x) i) M1) as H1.
  apply rest_valid in V as V2. apply rest_valid in V2 as V3. rewrite <- (app_nil_r (flat_map trigger_slots _)) in V3.
  pose proof (put_all_copies _ _ _ _ (fun i I => copies_constraint (oa_schema x) (oa_name x) i (part_valid constraint_slots _ _ _ V I)) M2) as H2.
  pose proof (put_all_copies _ _ _ _ (fun i I => copies_index (oa_schema x) (oa_name x) i (part_valid index_slots _ _ _ V2 I)) M3) as H3.
  pose proof (put_all_copies _ _ _ _ (fun i I => copies_trigger (oa_schema x) (oa_name x) i (part_valid trigger_slots _ _ _ V3 I)) M4) as H4.
  cbn [oa_columns oa_constraints oa_indexes oa_triggers]. change (option nat) with ref.
  destruct (in_sequence _ _ _ _ _ _ _ H1 N2 G U2) as (l1 & c1 & h1 & E1 & Gs1 & G1 & S1 & U3 & W1). rewrite E1. cbn [bindr].
  destruct (in_sequence _ _ _ _ _ _ _ H2 N3 G1 U3) as (l2 & c2 & h2 & E2 & Gs2 & G2 & S2 & U4 & W2). rewrite E2. cbn [bindr].
  destruct (in_sequence _ _ _ _ _ _ _ H3 N4 G2 U4) as (l3 & c3 & h3 & E3 & Gs3 & G3 & S3 & U5 & W3). rewrite E3. cbn [bindr].
  destruct (H4 [] c3 h3 G3 U5) as (l4 & c4 & h4 & E4 & Gs4 & S4 & W4). rewrite E4. cbn [bindr app].
  eexists _, _, _. split; [reflexivity|]. split; [grown|]. split.
  - intros h'' G''. unfold table_with. cbn [oa_schema oa_name oa_sql oa_virtual oa_columns oa_constraints oa_indexes oa_triggers oa_comment oa_ignore].
    specialize (S1 h1 (grows_refl _)). rewrite !map_id in S1. rewrite S1, (S2 h''), (S3 h''), (S4 h'' G''), Vt by grown. reflexivity.
  - intros q I. unfold table_places in I. rewrite W4, W3, W2, W1, keep_other; [reflexivity|intros J; apply I; left; symmetry; exact J| | | |];
      intros J; apply I; right; repeat (first [apply in_or_app; left; exact J|apply in_or_app; right|exact J]).
Qed.
Lemma copies_schema x : all_valid (schema_slots x) -> NoDup (schema_places x) -> (forall t, In t (os_tables x) -> oa_virtual t = false) -> copies schema_with (put_schema x) x (schema_places x).
Proof.
  intros V N Vt l c h G U. unfold put_schema. rewrite put_new by (exact (U _ (or_introl eq_refl))). cbn beta iota.
  pose proof (keep_free _ _ _ (List.length l) _ N U) as U2. inversion N as [|? ? N1 N2]; subst. clear N U.
  pose proof (nodup_apart _ _ N2) as (M1 & N3 & _). pose proof (nodup_apart _ _ N3) as (M2 & N4 & _). pose proof (nodup_apart _ _ N4) as (M3 & N5 & _). pose proof (nodup_apart _ _ N5) as (M4 & M5 & _).
  apply rest_valid in V as V2. apply rest_valid in V2 as V3. apply rest_valid in V3 as V4. apply rest_valid in V4 as V5. rewrite <- (app_nil_r (flat_map table_slots _)) in V5.
  assert (P : forall {A} (get : A -> list place) (m : list A) a, NoDup (flat_map get m) -> In a m -> NoDup (get a)).
  { intros A get m a. induction m as [|b m IH]; [contradiction|]. cbn [flat_map]. intros M I. apply nodup_apart in M as (Ma & Mb & _). destruct I as [->|I]; [exact Ma|exact (IH Mb I)]. }
  pose proof (put_all_copies _ _ _ _ (fun i I => copies_enum (os_name x) i (part_valid enum_slots _ _ _ V I)) M1) as H1.
  pose proof (put_all_copies _ _ _ _ (fun i I => copies_domain (os_name x) i (part_valid domain_slots _ _ _ V2 I)) M2) as H2.
  pose proof (put_all_copies _ _ _ _ (fun i I => copies_routine (os_name x) i (part_valid routine_slots _ _ _ V3 I)) M3) as H3.
  pose proof (put_all_copies _ _ _ _ (fun i I => copies_view (os_name x) i (part_valid view_slots _ _ _ V4 I) (P _ _ _ _ M4 I)) M4) as H4.
  pose proof (put_all_copies _ _ _ _ (fun i I => copies_table (os_name x) i (part_valid table_slots _ _ _ V5 I) (P _ _ _ _ M5 I) (Vt i I)) M5) as H5.
  cbn [os_enums os_domains os_routines os_views os_tables]. change (option nat) with ref.
  destruct (in_sequence _ _ _ _ _ _ _ H1 N2 G U2) as (l1 & c1 & h1 & E1 & Gs1 & G1 & S1 & U3 & W1). rewrite E1. cbn [bindr].
  destruct (in_sequence _ _ _ _ _ _ _ H2 N3 G1 U3) as (l2 & c2 & h2 & E2 & Gs2 & G2 & S2 & U4 & W2). rewrite E2. cbn [bindr].
  destruct (in_sequence _ _ _ _ _ _ _ H3 N4 G2 U4) as (l3 & c3 & h3 & E3 & Gs3 & G3 & S3 & U5 & W3). rewrite E3. cbn [bindr].
  destruct (in_sequence _ _ _ _ _ _ _ H4 N5 G3 U5) as (l4 & c4 & h4 & E4 & Gs4 & G4 & S4 & U6 & W4). rewrite E4. cbn [bindr].
  destruct (H5 [] c4 h4 G4 U6) as (l5 & c5 & h5 & E5 & Gs5 & S5 & W5). rewrite E5. cbn [bindr app].
  eexists _, _, _. split; [reflexivity|]. split; [grown|]. split.
  - intros h'' G''. unfold schema_with. cbn [os_name os_tables os_views os_routines os_enums os_domains os_valid os_comment os_ignore]. rewrite (S1 h''), (S2 h''), (S3 h''), (S4 h''), (S5 h'' G'') by grown. reflexivity.
  - intros q I. unfold schema_places in I. rewrite W5, W4, W3, W2, W1, keep_other; [reflexivity|intros J; apply I; left; symmetry; exact J| | | | |];
      intros J; apply I; right; repeat (first [apply in_or_app; left; exact J|apply in_or_app; right|exact J]).
Qed.
End Copying.

(** Everything is copied if all places are different. *)
Lemma copied src h : sound h src -> NoDup (places src) -> (forall s t, In s (og_schemas src) -> In t (os_tables s) -> oa_virtual t = false) ->
  exists dest h', write_catalog src empty_catalog h = Ok (dest, h') /\ contents h' dest = contents h src.
Proof.
  intros V N Vt. assert (V' : all_valid h (slots src)) by (intros r I i ->; exact (V i I)). unfold write_catalog, new_where. cbn [empty_catalog og_schemas og_dialect indexed].
  change (fold_left _ (indexed []) (fun _ _ => None)) with ((fun _ _ => None) : where_kept).
  assert (V1 : all_valid h [og_version src; og_extensions src]) by (intros r I; apply V'; apply in_or_app; left; exact I). apply rest_valid in V' as V2. rewrite <- (app_nil_r (flat_map schema_slots _)) in V2.
  pose proof (grows_refl h) as G0.
  destruct (clone h (og_version src)) as [h1 r1] eqn:C1. apply (clone_stands h) in C1 as (G1 & S1); [|exact G0|apply V1; cbn; tauto].
  destruct (clone h1 (og_extensions src)) as [h2 r2] eqn:C2. apply (clone_stands h) in C2 as (G2 & S2); [|exact G1|apply V1; cbn; tauto].
  assert (P : forall {A} (get : A -> list place) (m : list A) a, NoDup (flat_map get m) -> In a m -> NoDup (get a)).
  { intros A get m a. induction m as [|b m IH]; [contradiction|]. cbn [flat_map]. intros M I. apply nodup_apart in M as (Ma & Mb & _). destruct I as [->|I]; [exact Ma|exact (IH Mb I)]. }
  destruct (put_all_copies h _ _ _ _ (fun s I => copies_schema h s (part_valid h schema_slots _ _ _ V2 I) (P _ _ _ _ N I) (fun t => Vt s t I)) N [] (fun _ _ => None) h2
    (grows_trans _ _ _ G1 G2) (fun q _ => eq_refl)) as (l & c & h3 & E & G3 & S3 & _).
  match type of E with ?e = _ => match goal with |- context [put_all put_schema ?a ?b ?st] => change (put_all put_schema a b st) with e end end.
  rewrite E. cbn [bindr app]. eexists _, _. split; [reflexivity|]. unfold contents, catalog_with. cbn [og_dialect og_version og_name og_current og_collation og_extensions og_valid og_schemas].
  rewrite (S1 h3 (grows_trans _ _ _ G2 G3)), (S2 h3 G3), (S3 h3 (grows_refl _)). reflexivity.
Qed.

(** ** Names that are distinct give places that are *)
Lemma nodup_join {A} (l l' : list A) : NoDup l -> NoDup l' -> (forall a, In a l -> ~ In a l') -> NoDup (l ++ l').
Proof.
  induction l as [|x l IH]; intros N N' D; [exact N'|]. inversion N; subst. cbn [app]. apply NoDup_cons.
  - intros I. apply in_app_or in I as [I|I]; [contradiction|]. exact (D x (or_introl eq_refl) I).
  - apply IH; [assumption|exact N'|]. intros a I. apply D. right. exact I.
Qed.
Lemma nodup_flat {A B T} (get : A -> list B) (tag : B -> T) (name : A -> T) xs :
  NoDup (map name xs) -> (forall a, In a xs -> NoDup (get a)) -> (forall a b, In a xs -> In b (get a) -> tag b = name a) -> NoDup (flat_map get xs).
Proof.
  induction xs as [|a xs IH]; intros N H T0; [apply NoDup_nil|]. cbn [map] in N. inversion N as [|? ? N1 N2]; subst. cbn [flat_map]. apply nodup_join.
  - apply H. left. reflexivity.
  - apply IH; [exact N2|intros b I; apply H; right; exact I|intros b q I J; apply (T0 b q); [right; exact I|exact J]].
  - intros q I J. apply in_flat_map in J as (b & Ib & J). apply N1. apply in_map_iff. exists b. split; [|exact Ib].
    rewrite <- (T0 a q (or_introl eq_refl) I). symmetry. exact (T0 b q (or_intror Ib) J).
Qed.
Definition last_name (q : place) : bytes := last (snd q) [].
Definition relation_of (q : place) : bytes := nth 1 (snd q) [].
Definition schema_of (q : place) : bytes := hd [] (snd q).
Lemma one_place {A} (f : A -> place) (name : A -> bytes) xs : (forall a, last_name (f a) = name a) -> NoDup (map name xs) -> NoDup (flat_map (fun a => [f a]) xs).
Proof.
  intros L N. apply (nodup_flat _ last_name name _ N); [intros a _; apply NoDup_cons; [intros []|apply NoDup_nil]|]. intros a b _ [<-|[]]. apply L.
Qed.
Lemma kind_of {A} (get : A -> list place) k xs q : (forall a b, In b (get a) -> fst b = k) -> In q (flat_map get xs) -> fst q = k.
Proof. intros H I. apply in_flat_map in I as (a & _ & I). exact (H a q I). Qed.
Ltac kinds :=
  repeat match goal with
         | H : In _ (_ ++ _) |- _ => apply in_app_or in H as [H|H]
         | H : In _ (_ :: _) |- _ => destruct H as [H|H]; [first [discriminate H|subst]|]
         | H : In _ [] |- _ => destruct H
         | H : In _ (flat_map _ _) |- _ => apply in_flat_map in H as (? & ? & H)
         end.
Ltac places_here := unfold enum_places, domain_places, routine_places, trigger_places, index_places, column_places, constraint_places in *.
Lemma nodup_view s x : NoDup (map oi_name (ov_indexes x)) -> NoDup (map ot_name (ov_triggers x)) -> NoDup (view_places s x).
Proof.
  intros N1 N2. unfold view_places. places_here. apply NoDup_cons; [intros I; kinds|]. apply nodup_join.
  - apply (one_place (fun a => (KIndex, [ov_schema x; ov_name x; oi_name a])) _ _ (fun a => eq_refl) N1).
  - apply (one_place (fun a => (KTrigger, [ov_schema x; ov_name x; ot_name a])) _ _ (fun a => eq_refl) N2).
  - intros q I J. kinds.
Qed.
Lemma nodup_table s x : NoDup (map (fun c => col_name (oc_column c)) (oa_columns x)) -> NoDup (map ok_name (oa_constraints x)) -> NoDup (map oi_name (oa_indexes x)) ->
  NoDup (map ot_name (oa_triggers x)) -> NoDup (table_places s x).
Proof.
  intros N1 N2 N3 N4. unfold table_places. places_here. apply NoDup_cons; [intros I; kinds|].
  apply nodup_join; [|apply nodup_join; [|apply nodup_join|]|].
  - apply (one_place (fun a => (KColumn, [oa_schema x; oa_name x; col_name (oc_column a)])) _ _ (fun a => eq_refl) N1).
  - apply (one_place (fun a => (KConstraint, [oa_schema x; oa_name x; ok_name a])) _ _ (fun a => eq_refl) N2).
  - apply (one_place (fun a => (KIndex, [oa_schema x; oa_name x; oi_name a])) _ _ (fun a => eq_refl) N3).
  - apply (one_place (fun a => (KTrigger, [oa_schema x; oa_name x; ot_name a])) _ _ (fun a => eq_refl) N4).
  - intros q I J. kinds.
  - intros q I J. kinds.
  - intros q I J. kinds.
Qed.
Lemma view_relation s x q : In q (view_places s x) -> relation_of q = ov_name x.
Proof. unfold view_places. places_here. intros I. kinds; reflexivity. Qed.
Lemma table_relation s x q : In q (table_places s x) -> relation_of q = oa_name x.
Proof. unfold table_places. places_here. intros I. kinds; reflexivity. Qed.
Lemma relation_kind_view s x q : In q (view_places s x) -> fst q <> KEnum /\ fst q <> KDomain /\ fst q <> KRoutine /\ fst q <> KSchema.
Proof. unfold view_places. places_here. intros I. kinds; repeat split; discriminate. Qed.
Lemma relation_kind_table s x q : In q (table_places s x) -> fst q <> KEnum /\ fst q <> KDomain /\ fst q <> KRoutine /\ fst q <> KSchema.
Proof. unfold table_places. places_here. intros I. kinds; repeat split; discriminate. Qed.
Lemma filter_same {A} (f : A -> bool) l : (forall a, In a l -> f a = true) -> filter f l = l.
Proof. induction l as [|a l IH]; intros H; [reflexivity|]. cbn [filter]. rewrite (H a (or_introl eq_refl)), IH; [reflexivity|]. intros b I. apply H. right. exact I. Qed.
Lemma nodup_schema g s : distinct_names by_args g -> all_named g -> In s (og_schemas g) -> NoDup (schema_places s).
Proof.
  intros D A S.
  assert (RV : forall q, In q (flat_map (view_places (os_name s)) (os_views s)) -> fst q <> KEnum /\ fst q <> KDomain /\ fst q <> KRoutine /\ fst q <> KSchema).
  { intros q I. apply in_flat_map in I as (v & _ & I). exact (relation_kind_view _ _ _ I). }
  assert (RT : forall q, In q (flat_map (table_places (os_name s)) (os_tables s)) -> fst q <> KEnum /\ fst q <> KDomain /\ fst q <> KRoutine /\ fst q <> KSchema).
  { intros q I. apply in_flat_map in I as (v & _ & I). exact (relation_kind_table _ _ _ I). }
  assert (TE : forall q, In q (flat_map (enum_places (os_name s)) (os_enums s)) -> fst q = KEnum) by (intros q I; places_here; kinds; reflexivity).
  assert (TD : forall q, In q (flat_map (domain_places (os_name s)) (os_domains s)) -> fst q = KDomain) by (intros q I; places_here; kinds; reflexivity).
  assert (TR : forall q, In q (flat_map (routine_places (os_name s)) (os_routines s)) -> fst q = KRoutine) by (intros q I; places_here; kinds; reflexivity).
  unfold schema_places. apply NoDup_cons.
  { intros I. repeat (apply in_app_or in I as [I|I]); [apply TE in I|apply TD in I|apply TR in I|apply RV in I as (_ & _ & _ & I)|apply RT in I as (_ & _ & _ & I)]; try discriminate; apply I; reflexivity. }
  apply nodup_join; [|apply nodup_join; [|apply nodup_join; [|apply nodup_join|]|]|].
  - apply (one_place (fun a => (KEnum, [os_name s; oe_name a])) _ _ (fun a => eq_refl) (dn_enums by_args g D s S)).
  - apply (one_place (fun a => (KDomain, [os_name s; od_name a])) _ _ (fun a => eq_refl) (dn_domains by_args g D s S)).
  - apply (nodup_flat _ (fun q => (nth 1 (snd q) [], nth 2 (snd q) [])) _ _ (dn_routines by_args g D s S)); [intros a _; apply NoDup_cons; [intros []|apply NoDup_nil]|].
    intros a b _ [<-|[]]. reflexivity.
  - pose proof (dn_relations by_args g D s S) as N. apply nodup_apart in N as (_ & N & _). apply (nodup_flat _ relation_of ov_name _ N); [|intros a b _; apply view_relation].
    intros v I. destruct (dn_views by_args g D s v S I). apply nodup_view; assumption.
  - pose proof (dn_relations by_args g D s S) as N. apply nodup_apart in N as (N & _ & _). apply (nodup_flat _ relation_of oa_name _ N); [|intros a b _; apply table_relation].
    intros t I. destruct (dn_tables by_args g D s t S I) as (? & M & ? & ?). apply nodup_table; try assumption. rewrite filter_same in M; [exact M|].
    intros n J. apply in_map_iff in J as (k & <- & J). specialize (A s t k S I J). destruct (ok_name k); [contradiction|reflexivity].
  - intros q I J. apply in_flat_map in I as (v & Iv & I). apply in_flat_map in J as (t & It & J). apply view_relation in I. apply table_relation in J.
    pose proof (dn_relations by_args g D s S) as N. apply nodup_apart in N as (_ & _ & N). apply (N (oa_name t)); [apply in_map; exact It|]. rewrite <- J, I. apply in_map. exact Iv.
  - intros q I J. apply TR in I. repeat (apply in_app_or in J as [J|J]); [apply RV in J as (_ & _ & J & _)|apply RT in J as (_ & _ & J & _)]; contradiction.
  - intros q I J. apply TD in I. repeat (apply in_app_or in J as [J|J]); [apply TR in J; congruence|apply RV in J as (_ & J & _)|apply RT in J as (_ & J & _)]; contradiction.
  - intros q I J. apply TE in I. repeat (apply in_app_or in J as [J|J]); [apply TD in J; congruence|apply TR in J; congruence|apply RV in J as (J & _)|apply RT in J as (J & _)]; contradiction.
Qed.
Lemma distinct_places g : distinct_names by_args g -> all_named g -> NoDup (places g).
Proof.
  intros D A. apply (nodup_flat _ schema_of os_name _ (dn_schemas by_args g D)); [intros s S; exact (nodup_schema g s D A S)|].
  intros s q S I. destruct (dn_placed by_args g D s S) as (Pt & Pv). unfold schema_places in I. destruct I as [<-|I]; [reflexivity|].
  repeat (apply in_app_or in I as [I|I]); apply in_flat_map in I as (x & Ix & I); try (destruct I as [<-|[]]; reflexivity).
  - specialize (Pv x Ix). unfold view_places in I. places_here. kinds; [reflexivity|exact Pv|exact Pv].
  - specialize (Pt x Ix). unfold table_places in I. places_here. kinds; [reflexivity|exact Pt|exact Pt|exact Pt|exact Pt].
Qed.
