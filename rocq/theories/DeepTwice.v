(** Facts for C106: a catalog is written to one that has the same contents. *)
From Coq Require Import Lia.
From Verif Require Import GoStr GoStrFacts ModelCatalog ModelCache CacheFacts ModelDeep SpecDeep DeepFacts DeepCopy.

(** ** The positions that are kept *)
Definition entry := (place * nat)%type.
Definition enter_all (l : list entry) (c : where_kept) : where_kept := fold_left (fun c e => keep c (fst (fst e)) (snd (fst e)) (snd e)) l c.
Lemma enter_all_app l l' c : enter_all (l ++ l') c = enter_all l' (enter_all l c).
Proof. apply fold_left_app. Qed.
Lemma keep_here c k x i : at_place (keep c k x i) (k, x) = Some i.
Proof. unfold at_place, keep. cbn [fst snd]. replace (kindb k k) with true by (symmetry; apply kindb_spec; reflexivity). unfold upd. replace (keqb x x) with true by (symmetry; apply cache_key_eq; reflexivity). reflexivity. Qed.
Lemma enter_other l : forall c q, ~ In q (map fst l) -> at_place (enter_all l c) q = at_place c q.
Proof.
  induction l as [|[[k x] i] l IH]; intros c q N; [reflexivity|]. cbn [enter_all fold_left fst snd]. change (fold_left _ l ?d) with (enter_all l d).
  rewrite IH; [|intros J; apply N; right; exact J]. apply keep_other. intros ->. apply N. left. reflexivity.
Qed.
Lemma enter_found l : forall c q i, NoDup (map fst l) -> In (q, i) l -> at_place (enter_all l c) q = Some i.
Proof.
  induction l as [|[[k x] j] l IH]; intros c q i N I; [contradiction|]. cbn [map] in N. inversion N as [|? ? N1 N2]; subst. cbn [enter_all fold_left fst snd]. change (fold_left _ l ?d) with (enter_all l d).
  destruct I as [E|I]; [|exact (IH _ _ _ N2 I)]. injection E as <- <-. rewrite enter_other; [apply keep_here|exact N1].
Qed.
Definition numbered {A} (f : A -> place) (l : list A) : list entry := map (fun p => (f (snd p), fst p)) (indexed l).
Lemma indexed_cons {A} (l : list A) n : map snd (combine (seq n (List.length l)) l) = l.
Proof. revert n. induction l as [|a l IH]; intros n; [reflexivity|]. cbn [List.length seq combine map snd]. rewrite IH. reflexivity. Qed.
Lemma indexed_snd {A} (l : list A) : map snd (indexed l) = l.
Proof. apply indexed_cons. Qed.
Lemma indexed_nth {A} (l : list A) i a : nth_error l i = Some a -> In (i, a) (indexed l).
Proof.
  unfold indexed. assert (H : forall n i, nth_error l i = Some a -> In (n + i, a) (combine (seq n (List.length l)) l)); [|exact (H 0 i)]. clear i.
  induction l as [|b l IH]; intros n [|i] E; try discriminate E; cbn [List.length seq combine].
  - injection E as ->. left. f_equal. lia.
  - right. replace (n + S i) with (S n + i) by lia. apply IH. exact E.
Qed.
Lemma indexed_in {A} (l : list A) i a : In (i, a) (indexed l) -> In a l.
Proof. intros I. rewrite <- (indexed_snd l). apply in_map_iff. exists (i, a). split; [reflexivity|exact I]. Qed.
Lemma numbered_places {A} (f : A -> place) l : map fst (numbered f l) = map f l.
Proof. unfold numbered. rewrite map_map. cbn [fst]. rewrite <- (map_map snd f). rewrite indexed_snd. reflexivity. Qed.
Lemma keep_all_numbered {A} k (x : A -> key) l c : keep_all k x l c = enter_all (numbered (fun a => (k, x a)) l) c.
Proof.
  unfold keep_all, numbered. generalize (indexed l). intros m. revert c. induction m as [|[i a] m IH]; intros c; [reflexivity|]. cbn [fold_left map]. rewrite IH. reflexivity.
Qed.
Lemma fold_entries {A} (f : nat * A -> list entry) (step : where_kept -> nat * A -> where_kept) L c :
  (forall c p, In p L -> step c p = enter_all (f p) c) -> fold_left step L c = enter_all (flat_map f L) c.
Proof.
  revert c. induction L as [|p L IH]; intros c H; [reflexivity|]. cbn [fold_left flat_map]. rewrite (H c p (or_introl eq_refl)), enter_all_app. apply IH. intros d q I. apply H. right. exact I.
Qed.
Lemma flat_places {A} (f : nat * A -> list entry) (g : A -> list place) L : (forall i a, In (i, a) (indexed L) -> map fst (f (i, a)) = g a) -> map fst (flat_map f (indexed L)) = flat_map g L.
Proof.
  intros H. transitivity (flat_map g (map snd (indexed L))); [|rewrite indexed_snd; reflexivity]. induction (indexed L) as [|[i a] m IH]; [reflexivity|]. cbn [flat_map map snd]. rewrite map_app. f_equal; [exact (H i a (or_introl eq_refl))|]. apply IH.
  intros j b I. apply H. right. exact I.
Qed.
Section Entries.
Context {R : Type}.
Definition view_entries (n : bytes) (p : nat * o_view R) : list entry :=
  let v := snd p in ((KView, [n; ov_name v]), fst p) :: numbered (fun x => (KIndex, [n; ov_name v; oi_name x])) (ov_indexes v) ++ numbered (fun x => (KTrigger, [n; ov_name v; ot_name x])) (ov_triggers v).
Definition table_entries (n : bytes) (p : nat * o_table R) : list entry :=
  let t := snd p in ((KTable, [n; oa_name t]), fst p) :: numbered (fun x => (KColumn, [n; oa_name t; col_name (oc_column x)])) (oa_columns t)
    ++ numbered (fun x => (KConstraint, [n; oa_name t; ok_name x])) (oa_constraints t) ++ numbered (fun x => (KIndex, [n; oa_name t; oi_name x])) (oa_indexes t)
    ++ numbered (fun x => (KTrigger, [n; oa_name t; ot_name x])) (oa_triggers t).
Definition schema_entries (p : nat * o_schema R) : list entry :=
  let s := snd p in let n := os_name s in ((KSchema, [n]), fst p) :: numbered (fun x => (KEnum, [n; oe_name x])) (os_enums s) ++ numbered (fun x => (KDomain, [n; od_name x])) (os_domains s)
    ++ numbered (fun x => (KRoutine, [n; or_name x; or_args x])) (os_routines s) ++ flat_map (view_entries n) (indexed (os_views s)) ++ flat_map (table_entries n) (indexed (os_tables s)).
Lemma keep_all_none {A} k (x : A -> key) c : keep_all k x [] c = c.
Proof. reflexivity. Qed.
Lemma new_where_entries (g : o_catalog R) : all_named g -> usual_views g -> new_where g = enter_all (flat_map schema_entries (indexed (og_schemas g))) (fun _ _ => None).
Proof.
  intros N U. unfold new_where. apply fold_entries. intros c [i s] I. apply indexed_in in I. unfold keep_schema, schema_entries. cbn [fst snd]. cbv zeta.
  change (enter_all (((KSchema, [os_name s]), i) :: ?l) c) with (enter_all l (keep c KSchema [os_name s] i)). rewrite !enter_all_app.
  rewrite <- (fold_entries (table_entries (os_name s)) (fun c '(i, t) => keep_table (os_name s) (keep c KTable [os_name s; oa_name t] i) t)).
  2: { intros d [j t] J. apply indexed_in in J. unfold keep_table, table_entries. cbn [fst snd]. cbv zeta. change (enter_all (((KTable, [os_name s; oa_name t]), j) :: ?l) d) with (enter_all l (keep d KTable [os_name s; oa_name t] j)).
       rewrite !enter_all_app, <- !keep_all_numbered. do 2 f_equal. unfold keep_all. pose proof (N s t) as M. specialize (fun k => M k I J). clear N.
       assert (M' : forall p, In p (indexed (oa_constraints t)) -> ok_name (snd p) <> []) by (intros [a x] K; apply M; exact (indexed_in _ _ _ K)).
       generalize (fold_left (fun c0 '(i0, a) => keep c0 KColumn [os_name s; oa_name t; col_name (oc_column a)] i0) (indexed (oa_columns t)) (keep d KTable [os_name s; oa_name t] j)).
       induction (indexed (oa_constraints t)) as [|[a x] m IH]; intros w; [reflexivity|]. cbn [fold_left]. rewrite IH by (intros p K; apply M'; right; exact K).
       specialize (M' _ (or_introl eq_refl)). cbn [snd] in M'. destruct (ok_name x); [contradiction|reflexivity]. }
  f_equal. rewrite <- (fold_entries (view_entries (os_name s)) (fun c '(i, v) => keep_view (os_name s) (keep c KView [os_name s; ov_name v] i) v)).
  2: { intros d [j v] J. apply indexed_in in J. unfold keep_view, view_entries. cbn [fst snd]. cbv zeta. change (enter_all (((KView, [os_name s; ov_name v]), j) :: ?l) d) with (enter_all l (keep d KView [os_name s; ov_name v] j)).
       rewrite enter_all_app, <- !keep_all_numbered. pose proof (uv_views g U s v I J) as E. destruct (ov_materialized v); rewrite E; reflexivity. }
  f_equal. rewrite <- !keep_all_numbered. unfold keep_all at 1. unfold keep_all at 3.
  assert (M : forall p, In p (indexed (os_routines s)) -> og_dialect g = Postgres \/ or_args (snd p) = []) by (intros [a x] K; exact (uv_routines g U s x I (indexed_in _ _ _ K))).
  generalize (keep_all KDomain (fun x => [os_name s; od_name x]) (os_domains s) (keep_all KEnum (fun x => [os_name s; oe_name x]) (os_enums s) (keep c KSchema [os_name s] i))).
  induction (indexed (os_routines s)) as [|[a x] m IH]; intros w; [reflexivity|]. cbn [fold_left]. rewrite IH by (intros p K; apply M; right; exact K).
  specialize (M _ (or_introl eq_refl)). cbn [snd] in M. f_equal. f_equal. f_equal. destruct M as [E|E]; rewrite E; [reflexivity|]. destruct (og_dialect g); reflexivity.
Qed.
End Entries.
Lemma flat_one {A} (f : A -> place) l : flat_map (fun a => [f a]) l = map f l.
Proof. induction l as [|a l IH]; [reflexivity|]. cbn [flat_map app map]. rewrite IH. reflexivity. Qed.
Lemma entries_places g : distinct_names by_args g -> map fst (flat_map schema_entries (indexed (og_schemas g))) = places g.
Proof.
  intros D. apply flat_places. intros i s I. apply indexed_in in I. destruct (dn_placed by_args g D s I) as (Pt & Pv). unfold schema_entries, schema_places. cbn [map fst snd]. cbv zeta. f_equal.
  rewrite !map_app. places_here. rewrite !numbered_places, !flat_one. do 3 f_equal. f_equal.
  - apply flat_places. intros j v J. apply indexed_in in J. specialize (Pv v J). unfold view_entries, view_places. cbn [map fst snd]. cbv zeta. places_here. rewrite map_app, !numbered_places, !flat_one, Pv. reflexivity.
  - apply flat_places. intros j t J. apply indexed_in in J. specialize (Pt t J). unfold table_entries, table_places. cbn [map fst snd]. cbv zeta. places_here. rewrite !map_app, !numbered_places, !flat_one, Pt. reflexivity.
Qed.

(** Every object of the catalog is found where it is. *)
Definition at_own {A} (c : where_kept) (k : kind) (x : A -> key) (l : list A) : Prop := forall i a, nth_error l i = Some a -> c k (x a) = Some i.
Record view_found (c : where_kept) (n : bytes) (v : o_view ref) : Prop := {
  vf_indexes : at_own c KIndex (fun x => [n; ov_name v; oi_name x]) (ov_indexes v);
  vf_triggers : at_own c KTrigger (fun x => [n; ov_name v; ot_name x]) (ov_triggers v) }.
Record table_found (c : where_kept) (n : bytes) (t : o_table ref) : Prop := {
  tf_columns : at_own c KColumn (fun x => [n; oa_name t; col_name (oc_column x)]) (oa_columns t);
  tf_constraints : at_own c KConstraint (fun x => [n; oa_name t; ok_name x]) (oa_constraints t);
  tf_indexes : at_own c KIndex (fun x => [n; oa_name t; oi_name x]) (oa_indexes t);
  tf_triggers : at_own c KTrigger (fun x => [n; oa_name t; ot_name x]) (oa_triggers t) }.
Record schema_found (c : where_kept) (s : o_schema ref) : Prop := {
  sf_enums : at_own c KEnum (fun x => [os_name s; oe_name x]) (os_enums s);
  sf_domains : at_own c KDomain (fun x => [os_name s; od_name x]) (os_domains s);
  sf_routines : at_own c KRoutine (fun x => [os_name s; or_name x; or_args x]) (os_routines s);
  sf_views : at_own c KView (fun x => [os_name s; ov_name x]) (os_views s);
  sf_view : forall v, In v (os_views s) -> view_found c (os_name s) v;
  sf_tables : at_own c KTable (fun x => [os_name s; oa_name x]) (os_tables s);
  sf_table : forall t, In t (os_tables s) -> table_found c (os_name s) t }.
Record all_found (c : where_kept) (g : o_catalog ref) : Prop := {
  af_schemas : at_own c KSchema (fun s => [os_name s]) (og_schemas g);
  af_schema : forall s, In s (og_schemas g) -> schema_found c s }.
Lemma numbered_in {A} (f : A -> place) l i a : nth_error l i = Some a -> In (f a, i) (numbered f l).
Proof. intros E. apply in_map_iff. exists (i, a). split; [reflexivity|apply indexed_nth; exact E]. Qed.
Lemma in_indexed {A} (l : list A) a : In a l -> exists i, In (i, a) (indexed l).
Proof. intros I. apply In_nth_error in I as (i & I). exists i. apply indexed_nth. exact I. Qed.
Lemma new_where_found g : distinct_names by_args g -> all_named g -> usual_views g -> all_found (new_where g) g.
Proof.
  intros D N U. rewrite new_where_entries by assumption. pose proof (distinct_places g D N) as P. rewrite <- entries_places in P by assumption.
  assert (F : forall q i, In (q, i) (flat_map schema_entries (indexed (og_schemas g))) -> enter_all (flat_map schema_entries (indexed (og_schemas g))) (fun _ _ => None) (fst q) (snd q) = Some i).
  { intros q i I. exact (enter_found _ _ q i P I). }
  clear P. set (c := enter_all _ _) in *. clearbody c.
  assert (FS : forall s, In s (og_schemas g) -> exists i, forall e, In e (schema_entries (i, s)) -> c (fst (fst e)) (snd (fst e)) = Some (snd e)).
  { intros s I. apply in_indexed in I as (i & I). exists i. intros [q j] J. apply F. apply in_flat_map. exists (i, s). split; [exact I|exact J]. }
  split.
  - intros i s E. apply (F (KSchema, [os_name s]) i). apply in_flat_map. exists (i, s). split; [apply indexed_nth; exact E|]. left. reflexivity.
  - intros s I. destruct (FS s I) as (i & G). clear F FS.
    assert (FV : forall j v e, In (j, v) (indexed (os_views s)) -> In e (view_entries (os_name s) (j, v)) -> c (fst (fst e)) (snd (fst e)) = Some (snd e)).
    { intros j v e J K. apply G. right. do 3 (apply in_or_app; right). apply in_or_app. left. apply in_flat_map. exists (j, v). split; [exact J|exact K]. }
    assert (FT : forall j t e, In (j, t) (indexed (os_tables s)) -> In e (table_entries (os_name s) (j, t)) -> c (fst (fst e)) (snd (fst e)) = Some (snd e)).
    { intros j v e J K. apply G. right. do 4 (apply in_or_app; right). apply in_flat_map. exists (j, v). split; [exact J|exact K]. }
    split.
    + intros j x E. apply (G ((KEnum, [os_name s; oe_name x]), j)). right. apply in_or_app. left. apply (numbered_in (fun x => (KEnum, [os_name s; oe_name x]))). exact E.
    + intros j x E. apply (G ((KDomain, [os_name s; od_name x]), j)). right. apply in_or_app. right. apply in_or_app. left. apply (numbered_in (fun x => (KDomain, [os_name s; od_name x]))). exact E.
    + intros j x E. apply (G ((KRoutine, [os_name s; or_name x; or_args x]), j)). right. do 2 (apply in_or_app; right). apply in_or_app. left. apply (numbered_in (fun x => (KRoutine, [os_name s; or_name x; or_args x]))). exact E.
    + intros j v E. apply (FV j v ((KView, [os_name s; ov_name v]), j)); [apply indexed_nth; exact E|left; reflexivity].
    + intros v J. apply in_indexed in J as (j & J). specialize (fun e => FV j v e J). split; intros k x E.
      * apply (FV ((KIndex, [os_name s; ov_name v; oi_name x]), k)). right. apply in_or_app. left. apply (numbered_in (fun x => (KIndex, [os_name s; ov_name v; oi_name x]))). exact E.
      * apply (FV ((KTrigger, [os_name s; ov_name v; ot_name x]), k)). right. apply in_or_app. right. apply (numbered_in (fun x => (KTrigger, [os_name s; ov_name v; ot_name x]))). exact E.
    + intros j t E. apply (FT j t ((KTable, [os_name s; oa_name t]), j)); [apply indexed_nth; exact E|left; reflexivity].
    + intros t J. apply in_indexed in J as (j & J). specialize (fun e => FT j t e J). split; intros k x E.
      * apply (FT ((KColumn, [os_name s; oa_name t; col_name (oc_column x)]), k)). right. apply in_or_app. left. apply (numbered_in (fun x => (KColumn, [os_name s; oa_name t; col_name (oc_column x)]))). exact E.
      * apply (FT ((KConstraint, [os_name s; oa_name t; ok_name x]), k)). right. apply in_or_app. right. apply in_or_app. left. apply (numbered_in (fun x => (KConstraint, [os_name s; oa_name t; ok_name x]))). exact E.
      * apply (FT ((KIndex, [os_name s; oa_name t; oi_name x]), k)). right. do 2 (apply in_or_app; right). apply in_or_app. left. apply (numbered_in (fun x => (KIndex, [os_name s; oa_name t; oi_name x]))). exact E.
      * apply (FT ((KTrigger, [os_name s; oa_name t; ot_name x]), k)). right. do 3 (apply in_or_app; right). apply (numbered_in (fun x => (KTrigger, [os_name s; oa_name t; ot_name x]))). exact E.
Qed.

(** The positions do not depend on the slices. *)
Lemma indexed_map {A A'} (f : A -> A') l : indexed (map f l) = map (fun p => (fst p, f (snd p))) (indexed l).
Proof. unfold indexed. rewrite map_length. generalize 0. induction l as [|a l IH]; intros n; [reflexivity|]. cbn [List.length seq map combine fst snd]. rewrite IH. reflexivity. Qed.
Lemma keep_all_map {A A'} (f : A -> A') k x l c : keep_all k x (map f l) c = keep_all k (fun a => x (f a)) l c.
Proof.
  unfold keep_all. rewrite indexed_map. generalize (indexed l). intros m. revert c. induction m as [|[i a] m IH]; intros c; [reflexivity|]. cbn [fold_left map fst snd]. apply IH.
Qed.
Lemma fold_indexed_map {A A' T} (f : A -> A') (step : T -> nat * A' -> T) (step' : T -> nat * A -> T) l c : (forall c i a, step c (i, f a) = step' c (i, a)) ->
  fold_left step (indexed (map f l)) c = fold_left step' (indexed l) c.
Proof. intros H. rewrite indexed_map. revert c. induction (indexed l) as [|[i a] m IH]; intros c; [reflexivity|]. cbn [fold_left map fst snd]. rewrite H. apply IH. Qed.
Lemma new_where_with {R S} (f : R -> S) (g : o_catalog R) : new_where (catalog_with f g) = new_where g.
Proof.
  unfold new_where. cbn [catalog_with og_schemas og_dialect]. apply fold_indexed_map. intros c i s. unfold keep_schema. cbn [schema_with os_name os_enums os_domains os_routines os_views os_tables]. cbv zeta.
  rewrite !keep_all_map. etransitivity; [apply (fold_indexed_map _ _ (fun c '(i, t) => keep_table (os_name s) (keep c KTable [os_name s; oa_name t] i) t))|].
  - intros d j t. unfold keep_table. cbn [table_with oa_name oa_columns oa_constraints oa_indexes oa_triggers]. cbv zeta. rewrite !keep_all_map. do 2 f_equal. apply fold_indexed_map. reflexivity.
  - f_equal. apply fold_indexed_map. intros d j v. unfold keep_view. cbn [view_with ov_name ov_materialized ov_indexes ov_triggers]. rewrite !keep_all_map. reflexivity.
Qed.

(** ** Writing *)
Lemma put_found {A} k x ignored (new : A) fill l c h i b : c k x = Some i -> nth_error l i = Some b -> ignored b = false ->
  put k x ignored new fill l (c, h) = bindr (fill b (c, h)) (fun '(a, st) => Ok (set_nth i a l, st)).
Proof. intros F E I. unfold put, get_or_create. cbn [fst snd]. rewrite F. cbn [at_pos]. rewrite E, I. cbn [bindr]. rewrite E. reflexivity. Qed.
Lemma set_nth_between {A} (a b : A) l : forall l', set_nth (List.length l) a (l ++ b :: l') = l ++ a :: l'.
Proof. induction l as [|x l IH]; intros l'; [reflexivity|]. cbn [List.length app set_nth]. rewrite IH. reflexivity. Qed.
Section Again.
Context (h0 : heap) (c : where_kept).
Definition rewrites {A C} (as_ : (ref -> option cell) -> A -> C) (step : list A -> ModelDeep.state -> result (list A * ModelDeep.state)) (x : A) (i : nat) : Prop :=
  forall l h b, grows h0 h -> nth_error l i = Some b -> as_ (look h0) b = as_ (look h0) x ->
    exists a h', step l (c, h) = Ok (set_nth i a l, (c, h')) /\ grows h h' /\ forall h'', grows h' h'' -> as_ (look h'') a = as_ (look h0) x.
Lemma put_all_again {A C} (as_ : (ref -> option cell) -> A -> C) step from : forall done rest h,
  (forall i a, nth_error from i = Some a -> rewrites as_ (step a) a (List.length done + i)) -> grows h0 h -> map (as_ (look h0)) rest = map (as_ (look h0)) from ->
  exists done' h', put_all step from (done ++ rest) (c, h) = Ok (done ++ done', (c, h')) /\ grows h h' /\ forall h'', grows h' h'' -> map (as_ (look h'')) done' = map (as_ (look h0)) from.
Proof.
  induction from as [|x from IH]; intros done rest h H G E.
  - exists [], h. destruct rest; [|discriminate E]. split; [reflexivity|]. split; [apply grows_refl|]. reflexivity.
  - destruct rest as [|b rest]; [discriminate E|]. cbn [map] in E. injection E as Eb E. cbn [put_all].
    pose proof (H 0 x eq_refl (done ++ b :: rest) h b G) as X. rewrite Nat.add_0_r in X. rewrite nth_error_app2, Nat.sub_diag in X by lia. destruct (X eq_refl Eb) as (a & h1 & E1 & G1 & S1). rewrite E1. cbn [bindr].
    rewrite set_nth_between. destruct (IH (done ++ [a]) rest h1) as (done' & h2 & E2 & G2 & S2).
    + intros i y Ey. specialize (H (S i) y Ey). rewrite app_length. cbn [List.length]. replace (List.length done + 1 + i) with (List.length done + S i) by lia. exact H.
    + exact (grows_trans _ _ _ G G1).
    + exact E.
    + rewrite <- app_assoc in E2. cbn [app] in E2. exists (a :: done'), h2. split; [rewrite E2, <- app_assoc; reflexivity|]. split; [exact (grows_trans _ _ _ G1 G2)|].
      intros h'' G''. cbn [map]. f_equal; [exact (S1 _ (grows_trans _ _ _ G2 G''))|exact (S2 _ G'')].
Qed.
Lemma put_all_again0 {A C} (as_ : (ref -> option cell) -> A -> C) step from rest h :
  (forall i a, nth_error from i = Some a -> rewrites as_ (step a) a i) -> grows h0 h -> map (as_ (look h0)) rest = map (as_ (look h0)) from ->
  exists done' h', put_all step from rest (c, h) = Ok (done', (c, h')) /\ grows h h' /\ forall h'', grows h' h'' -> map (as_ (look h'')) done' = map (as_ (look h0)) from.
Proof. intros H G E. exact (put_all_again as_ step from [] rest h H G E). Qed.
Ltac is_valid := match goal with V : all_valid _ ?l |- valid _ ?r => apply V; cbn; tauto end.
Ltac grown := repeat match goal with G : grows ?a ?b |- grows ?a ?c => first [exact G|apply (grows_trans _ _ _ G); clear G] end; try apply grows_refl.
Ltac clonings :=
  repeat match goal with
         | |- context [clone ?h ?r] => let h' := fresh "h" in let r' := fresh "r" in let C := fresh "C" in destruct (clone h r) as [h' r'] eqn:C;
             apply (clone_stands h0) in C as (?Gr & ?Sr); [|grown|is_valid]
         end.
Ltac stands := repeat match goal with S : stands_for h0 ?h ?r' ?r |- context [look ?h' ?r'] => rewrite (S h') by grown; clear S end.
Lemma again_enum s x i : all_valid h0 (enum_slots x) -> c KEnum [s; oe_name x] = Some i -> oe_ignore x = false -> rewrites enum_with (put_enum s x) x i.
Proof.
  intros V F Ig l h b G En E. apply (f_equal oe_ignore) in E. cbn in E. unfold put_enum. rewrite (put_found _ _ _ _ _ _ _ _ _ _ F En) by exact (eq_trans E Ig). clonings. cbn [bindr].
  eexists _, _. split; [reflexivity|]. split; [grown|]. intros h'' G''. unfold enum_with. cbn [oe_labels]. stands. reflexivity.
Qed.
Lemma again_domain s x i : all_valid h0 (domain_slots x) -> c KDomain [s; od_name x] = Some i -> od_ignore x = false -> rewrites domain_with (put_domain s x) x i.
Proof.
  intros V F Ig l h b G En E. apply (f_equal od_ignore) in E. cbn in E. unfold put_domain. rewrite (put_found _ _ _ _ _ _ _ _ _ _ F En) by exact (eq_trans E Ig). clonings. cbn [bindr].
  eexists _, _. split; [reflexivity|]. split; [grown|]. intros h'' G''. unfold domain_with. cbn [od_checknames od_checkexprs]. stands. reflexivity.
Qed.
Lemma again_routine s x i : all_valid h0 (routine_slots x) -> c KRoutine [s; or_name x; or_args x] = Some i -> or_ignore x = false -> rewrites routine_with (put_routine s x) x i.
Proof.
  intros V F Ig l h b G En E. apply (f_equal or_ignore) in E. cbn in E. unfold put_routine. rewrite (put_found _ _ _ _ _ _ _ _ _ _ F En) by exact (eq_trans E Ig). clonings. cbn [bindr].
  eexists _, _. split; [reflexivity|]. split; [grown|]. intros h'' G''. unfold routine_with. cbn [or_attrs]. stands. reflexivity.
Qed.
Lemma again_trigger s t x i : all_valid h0 (trigger_slots x) -> c KTrigger [s; t; ot_name x] = Some i -> ot_ignore x = false -> rewrites trigger_with (put_trigger s t x) x i.
Proof.
  intros V F Ig l h b G En E. apply (f_equal ot_ignore) in E. cbn in E. unfold put_trigger. rewrite (put_found _ _ _ _ _ _ _ _ _ _ F En) by exact (eq_trans E Ig). clonings. cbn [bindr].
  eexists _, _. split; [reflexivity|]. split; [grown|]. intros h'' G''. unfold trigger_with. cbn [ot_attrs]. stands. reflexivity.
Qed.
Lemma again_index s t x i : all_valid h0 (index_slots x) -> c KIndex [s; t; oi_name x] = Some i -> oi_ignore x = false -> rewrites index_with (put_index s t x) x i.
Proof.
  intros V F Ig l h b G En E. apply (f_equal oi_ignore) in E. cbn in E. unfold put_index. rewrite (put_found _ _ _ _ _ _ _ _ _ _ F En) by exact (eq_trans E Ig). clonings. cbn [bindr].
  eexists _, _. split; [reflexivity|]. split; [grown|]. intros h'' G''. unfold index_with. cbn [oi_columns oi_include oi_descending oi_opclasses]. stands. reflexivity.
Qed.
Lemma again_view_index s t x i : all_valid h0 (index_slots x) -> c KIndex [s; t; oi_name x] = Some i -> oi_ignore x = false -> rewrites index_with (put_view_index s t x) x i.
Proof.
  intros V F Ig l h b G En E. apply (f_equal oi_ignore) in E. cbn in E. unfold put_view_index. rewrite (put_found _ _ _ _ _ _ _ _ _ _ F En) by exact (eq_trans E Ig). clonings. cbn [bindr].
  eexists _, _. split; [reflexivity|]. split; [grown|]. intros h'' G''. unfold index_with. cbn [oi_columns oi_include oi_descending oi_opclasses]. stands.
  rewrite (look_valid h0 h'' (oi_descending x)), (look_valid h0 h'' (oi_opclasses x)); [reflexivity|grown|is_valid|grown|is_valid].
Qed.
Lemma again_constraint s t x i : all_valid h0 (constraint_slots x) -> c KConstraint [s; t; ok_name x] = Some i -> ok_ignore x = false -> rewrites constraint_with (put_constraint s t x) x i.
Proof.
  intros V F Ig l h b G En E. apply (f_equal ok_ignore) in E. cbn in E. unfold put_constraint. rewrite (put_found _ _ _ _ _ _ _ _ _ _ F En) by exact (eq_trans E Ig). clonings. cbn [bindr].
  eexists _, _. split; [reflexivity|]. split; [grown|]. intros h'' G''. unfold constraint_with. cbn [ok_columns ok_refcolumns ok_operators]. stands. reflexivity.
Qed.
Lemma again_column s t x i : c KColumn [s; t; col_name (oc_column x)] = Some i -> col_ignore (oc_column x) = false -> rewrites (fun _ y => y) (put_column s t x) x i.
Proof.
  intros F Ig l h b G En E. cbn beta in E. unfold put_column. rewrite (put_found _ _ _ _ _ _ _ _ _ _ F En) by (rewrite E; exact Ig). cbn [bindr].
  eexists _, _. split; [reflexivity|]. split; [grown|]. reflexivity.
Qed.
Ltac same_form E := match type of E with ?e = _ => match goal with |- context [put_all ?f ?a ?b ?st] => change (put_all f a b st) with e end end.
Lemma again_view s x i : all_valid h0 (view_slots x) -> ov_schema x = s -> c KView [s; ov_name x] = Some i -> view_found c s x -> ov_ignore x = false ->
  (forall y, In y (ov_indexes x) -> oi_ignore y = false) -> (forall y, In y (ov_triggers x) -> ot_ignore y = false) -> rewrites view_with (put_view s x) x i.
Proof.
  intros V Es F Fv Ig Ix It l h b G En E. pose proof (f_equal ov_ignore E) as Eb. cbn in Eb. rewrite Ig in Eb. pose proof (f_equal ov_indexes E) as Ei. pose proof (f_equal ov_triggers E) as Et. cbn [view_with ov_indexes ov_triggers] in Ei, Et.
  unfold put_view. rewrite (put_found _ _ _ _ _ _ _ _ _ _ F En) by exact Eb.
  assert (V1 : all_valid h0 [ov_columns x; ov_types x; ov_enums x]) by (intros r I; apply V; apply in_or_app; left; exact I). apply rest_valid in V as V2. clear V. clonings.
  match goal with |- context [put_all _ _ _ (_, ?hh)] => assert (G2 : grows h0 hh) by grown end.
  apply rest_valid in V2 as V3. rewrite <- (app_nil_r (flat_map trigger_slots _)) in V3.
  destruct (put_all_again0 index_with (put_view_index (ov_schema x) (ov_name x)) (ov_indexes x) (ov_indexes b) _ (fun j y Ey => again_view_index _ _ y j (part_valid h0 index_slots _ _ _ V2 (nth_error_In _ _ Ey))
    (eq_trans (f_equal (fun s => c KIndex [s; ov_name x; oi_name y]) Es) (vf_indexes _ _ _ Fv j y Ey)) (Ix y (nth_error_In _ _ Ey))) G2 Ei) as (l1 & h1' & E1 & G1 & S1). same_form E1. rewrite E1. cbn [bindr].
  destruct (put_all_again0 trigger_with (put_trigger (ov_schema x) (ov_name x)) (ov_triggers x) (ov_triggers b) h1' (fun j y Ey => again_trigger _ _ y j (part_valid h0 trigger_slots _ _ _ V3 (nth_error_In _ _ Ey))
    (eq_trans (f_equal (fun s => c KTrigger [s; ov_name x; ot_name y]) Es) (vf_triggers _ _ _ Fv j y Ey)) (It y (nth_error_In _ _ Ey))) (grows_trans _ _ _ G2 G1) Et) as (l2 & h2' & E2 & G3 & S3). same_form E2. rewrite E2. cbn [bindr].
  eexists _, _. split; [reflexivity|]. split; [grown|]. intros h'' G''. unfold view_with. cbn [ov_columns ov_types ov_enums ov_indexes ov_triggers].
  rewrite (S1 h'' (grows_trans _ _ _ G3 G'')), (S3 h'' G''). stands. reflexivity.
Qed.
Lemma again_table s x i : all_valid h0 (table_slots x) -> oa_schema x = s -> c KTable [s; oa_name x] = Some i -> table_found c s x -> oa_ignore x = false ->
  (forall y, In y (oa_columns x) -> col_ignore (oc_column y) = false) -> (forall y, In y (oa_constraints x) -> ok_ignore y = false) ->
  (forall y, In y (oa_indexes x) -> oi_ignore y = false) -> (forall y, In y (oa_triggers x) -> ot_ignore y = false) -> rewrites table_with (put_table s x) x i.
Proof.
  intros V Es F Ft Ig Ic Ik Ix It l h b G En E. pose proof (f_equal oa_ignore E) as Eb. cbn in Eb. rewrite Ig in Eb. pose proof (f_equal oa_virtual E) as Ev. cbn [table_with oa_virtual] in Ev.
  assert (Ec : map (fun y => y) (oa_columns b) = map (fun y => y) (oa_columns x)) by (rewrite !map_id; exact (f_equal oa_columns E)).
  pose proof (f_equal oa_constraints E) as Ek. pose proof (f_equal oa_indexes E) as Ei. pose proof (f_equal oa_triggers E) as Et. cbn [table_with oa_constraints oa_indexes oa_triggers] in Ek, Ei, Et.
  unfold put_table. rewrite (put_found _ _ _ _ _ _ _ _ _ _ F En) by exact Eb. apply rest_valid in V as V2. apply rest_valid in V2 as V3. rewrite <- (app_nil_r (flat_map trigger_slots _)) in V3.
  destruct (put_all_again0 (fun _ y => y) (put_column (oa_schema x) (oa_name x)) (oa_columns x) (oa_columns b) h (fun j y Ey => again_column _ _ y j
    (eq_trans (f_equal (fun s => c KColumn [s; oa_name x; col_name (oc_column y)]) Es) (tf_columns _ _ _ Ft j y Ey)) (Ic y (nth_error_In _ _ Ey))) G Ec) as (l1 & h1 & E1 & G1 & S1). same_form E1. rewrite E1. cbn [bindr].
  destruct (put_all_again0 constraint_with (put_constraint (oa_schema x) (oa_name x)) (oa_constraints x) (oa_constraints b) h1 (fun j y Ey => again_constraint _ _ y j (part_valid h0 constraint_slots _ _ _ V (nth_error_In _ _ Ey))
    (eq_trans (f_equal (fun s => c KConstraint [s; oa_name x; ok_name y]) Es) (tf_constraints _ _ _ Ft j y Ey)) (Ik y (nth_error_In _ _ Ey))) (grows_trans _ _ _ G G1) Ek) as (l2 & h2 & E2 & G2 & S2). same_form E2. rewrite E2. cbn [bindr].
  destruct (put_all_again0 index_with (put_index (oa_schema x) (oa_name x)) (oa_indexes x) (oa_indexes b) h2 (fun j y Ey => again_index _ _ y j (part_valid h0 index_slots _ _ _ V2 (nth_error_In _ _ Ey))
    (eq_trans (f_equal (fun s => c KIndex [s; oa_name x; oi_name y]) Es) (tf_indexes _ _ _ Ft j y Ey)) (Ix y (nth_error_In _ _ Ey))) (grows_trans _ _ _ G (grows_trans _ _ _ G1 G2)) Ei) as (l3 & h3 & E3 & G3 & S3). same_form E3. rewrite E3. cbn [bindr].
  destruct (put_all_again0 trigger_with (put_trigger (oa_schema x) (oa_name x)) (oa_triggers x) (oa_triggers b) h3 (fun j y Ey => again_trigger _ _ y j (part_valid h0 trigger_slots _ _ _ V3 (nth_error_In _ _ Ey))
    (eq_trans (f_equal (fun s => c KTrigger [s; oa_name x; ot_name y]) Es) (tf_triggers _ _ _ Ft j y Ey)) (It y (nth_error_In _ _ Ey))) (grows_trans _ _ _ G (grows_trans _ _ _ G1 (grows_trans _ _ _ G2 G3))) Et) as (l4 & h4 & E4 & G4 & S4).
  same_form E4. rewrite E4. cbn [bindr]. eexists _, _. split; [reflexivity|]. split; [grown|]. intros h'' G''. unfold table_with. cbn [oa_schema oa_name oa_sql oa_virtual oa_columns oa_constraints oa_indexes oa_triggers oa_comment oa_ignore].
  specialize (S1 h1 (grows_refl _)). rewrite !map_id in S1. rewrite S1, (S2 h''), (S3 h''), (S4 h'' G''), Ev by grown. reflexivity.
Qed.
Lemma again_schema x i : all_valid h0 (schema_slots x) -> (forall t, In t (os_tables x) -> oa_schema t = os_name x) -> (forall v, In v (os_views x) -> ov_schema v = os_name x) ->
  c KSchema [os_name x] = Some i -> schema_found c x -> os_ignore x = false -> (forall y, In y (os_enums x) -> oe_ignore y = false) -> (forall y, In y (os_domains x) -> od_ignore y = false) -> (forall y, In y (os_routines x) -> or_ignore y = false) ->
  (forall v, In v (os_views x) -> ov_ignore v = false /\ (forall y, In y (ov_indexes v) -> oi_ignore y = false) /\ (forall y, In y (ov_triggers v) -> ot_ignore y = false)) ->
  (forall t, In t (os_tables x) -> oa_ignore t = false /\ (forall y, In y (oa_columns t) -> col_ignore (oc_column y) = false) /\ (forall y, In y (oa_constraints t) -> ok_ignore y = false)
    /\ (forall y, In y (oa_indexes t) -> oi_ignore y = false) /\ (forall y, In y (oa_triggers t) -> ot_ignore y = false)) -> rewrites schema_with (put_schema x) x i.
Proof.
  intros V Pt Pv F Fs Ig Ie Id Ir Iv It l h b G En E. pose proof (f_equal os_ignore E) as Eb. cbn in Eb. rewrite Ig in Eb.
  pose proof (f_equal os_enums E) as Ee. pose proof (f_equal os_domains E) as Ed. pose proof (f_equal os_routines E) as Er. pose proof (f_equal os_views E) as Ev. pose proof (f_equal os_tables E) as Et.
  cbn [schema_with os_enums os_domains os_routines os_views os_tables] in Ee, Ed, Er, Ev, Et.
  unfold put_schema. rewrite (put_found _ _ _ _ _ _ _ _ _ _ F En) by exact Eb.
  apply rest_valid in V as V2. apply rest_valid in V2 as V3. apply rest_valid in V3 as V4. apply rest_valid in V4 as V5. rewrite <- (app_nil_r (flat_map table_slots _)) in V5.
  destruct (put_all_again0 enum_with (put_enum (os_name x)) (os_enums x) (os_enums b) h (fun j y Ey => again_enum _ y j (part_valid h0 enum_slots _ _ _ V (nth_error_In _ _ Ey)) (sf_enums _ _ Fs j y Ey) (Ie y (nth_error_In _ _ Ey))) G Ee)
    as (l1 & h1 & E1 & G1 & S1). same_form E1. rewrite E1. cbn [bindr]. pose proof (grows_trans _ _ _ G G1) as H1.
  destruct (put_all_again0 domain_with (put_domain (os_name x)) (os_domains x) (os_domains b) h1 (fun j y Ey => again_domain _ y j (part_valid h0 domain_slots _ _ _ V2 (nth_error_In _ _ Ey)) (sf_domains _ _ Fs j y Ey) (Id y (nth_error_In _ _ Ey))) H1 Ed)
    as (l2 & h2 & E2 & G2 & S2). same_form E2. rewrite E2. cbn [bindr]. pose proof (grows_trans _ _ _ H1 G2) as H2.
  destruct (put_all_again0 routine_with (put_routine (os_name x)) (os_routines x) (os_routines b) h2 (fun j y Ey => again_routine _ y j (part_valid h0 routine_slots _ _ _ V3 (nth_error_In _ _ Ey)) (sf_routines _ _ Fs j y Ey) (Ir y (nth_error_In _ _ Ey))) H2 Er)
    as (l3 & h3 & E3 & G3 & S3). same_form E3. rewrite E3. cbn [bindr]. pose proof (grows_trans _ _ _ H2 G3) as H3.
  destruct (put_all_again0 view_with (put_view (os_name x)) (os_views x) (os_views b) h3 (fun j y Ey => let I := nth_error_In _ _ Ey in
     again_view _ y j (part_valid h0 view_slots _ _ _ V4 I) (Pv y I) (sf_views _ _ Fs j y Ey) (sf_view _ _ Fs y I) (proj1 (Iv y I)) (proj1 (proj2 (Iv y I))) (proj2 (proj2 (Iv y I)))) H3 Ev)
    as (l4 & h4 & E4 & G4 & S4). same_form E4. rewrite E4. cbn [bindr]. pose proof (grows_trans _ _ _ H3 G4) as H4.
  destruct (put_all_again0 table_with (put_table (os_name x)) (os_tables x) (os_tables b) h4 (fun j y Ey => let I := nth_error_In _ _ Ey in
     again_table _ y j (part_valid h0 table_slots _ _ _ V5 I) (Pt y I) (sf_tables _ _ Fs j y Ey) (sf_table _ _ Fs y I) (proj1 (It y I)) (proj1 (proj2 (It y I))) (proj1 (proj2 (proj2 (It y I))))
       (proj1 (proj2 (proj2 (proj2 (It y I))))) (proj2 (proj2 (proj2 (proj2 (It y I)))))) H4 Et)
    as (l5 & h5 & E5 & G5 & S5). same_form E5. rewrite E5. cbn [bindr].
  eexists _, _. split; [reflexivity|]. split; [clear H1 H2 H3 H4; grown|]. intros h'' G''. clear H1 H2 H3 H4. unfold schema_with. cbn [os_name os_tables os_views os_routines os_enums os_domains os_valid os_comment os_ignore].
  rewrite (S1 h''), (S2 h''), (S3 h''), (S4 h''), (S5 h'' G'') by grown. reflexivity.
Qed.
End Again.

(** Everything is found again. *)
Lemma written_again src dest h : sound h src -> distinct_names by_args src -> all_named src -> usual_views src -> none_ignored src -> contents h dest = contents h src ->
  exists dest' h', write_catalog src dest h = Ok (dest', h') /\ contents h' dest' = contents h src.
Proof.
  intros V D N U Ni E. assert (V' : all_valid h (slots src)) by (intros r I i ->; exact (V i I)).
  assert (W : new_where dest = new_where src) by (rewrite <- (new_where_with (look h) dest), <- (new_where_with (look h) src); unfold contents in E; rewrite E; reflexivity).
  unfold write_catalog. rewrite W. pose proof (new_where_found src D N U) as Af. set (c := new_where src) in *. clearbody c.
  assert (V1 : all_valid h [og_version src; og_extensions src]) by (intros r I; apply V'; apply in_or_app; left; exact I). apply rest_valid in V' as V2. rewrite <- (app_nil_r (flat_map schema_slots _)) in V2.
  pose proof (grows_refl h) as G0.
  destruct (clone h (og_version src)) as [h1 r1] eqn:C1. apply (clone_stands h) in C1 as (G1 & S1); [|exact G0|apply V1; cbn; tauto].
  destruct (clone h1 (og_extensions src)) as [h2 r2] eqn:C2. apply (clone_stands h) in C2 as (G2 & S2); [|exact G1|apply V1; cbn; tauto].
  pose proof (f_equal og_schemas E) as Es. cbn [contents catalog_with og_schemas] in Es.
  destruct (put_all_again0 h c schema_with put_schema (og_schemas src) (og_schemas dest) h2) as (l & h3 & E3 & G3 & S3).
  - intros j s Ej. pose proof (nth_error_In _ _ Ej) as I. destruct (dn_placed by_args src D s I) as (Pt & Pv). apply again_schema.
    + exact (part_valid h schema_slots _ _ _ V2 I).
    + exact Pt.
    + exact Pv.
    + exact (af_schemas _ _ Af j s Ej).
    + exact (af_schema _ _ Af s I).
    + exact (ni_schemas _ Ni s I).
    + exact (fun y => ni_enums _ Ni s y I).
    + exact (fun y => ni_domains _ Ni s y I).
    + exact (fun y => ni_routines _ Ni s y I).
    + exact (fun y => ni_views _ Ni s y I).
    + exact (fun y => ni_tables _ Ni s y I).
  - exact (grows_trans _ _ _ G1 G2).
  - exact Es.
  - rewrite E3. cbn [bindr]. eexists _, _. split; [reflexivity|]. unfold contents, catalog_with. cbn [og_dialect og_version og_name og_current og_collation og_extensions og_valid og_schemas].
    rewrite (S1 h3 (grows_trans _ _ _ G2 G3)), (S2 h3 G3), (S3 h3 (grows_refl _)). reflexivity.
Qed.
