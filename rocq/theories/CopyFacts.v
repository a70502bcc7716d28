(** Proofs about Catalog.WriteCatalog. *)
From Coq Require Import Lia.
From Verif Require Import GoStr GoStrFacts ModelCatalog ModelCache SpecCache CacheFacts.

Lemma set_last : forall {A} (l : list A) a b, set_nth (List.length l) b (l ++ [a]) = l ++ [b].
Proof. induction l as [|x l IH]; intros a b; cbn; [reflexivity|]. rewrite IH. reflexivity. Qed.

Lemma keys3 : forall (s t n n' : bytes), n <> n' -> [s; t; n] <> [s; t; n'].
Proof. intros s t n n' N E. injection E as E. contradiction. Qed.

Lemma frame_t_refl : forall c s t, frame_t c c s t.
Proof. intros c s t. split; [reflexivity|]. split; [reflexivity|]. intros. apply same_refl. Qed.
Lemma frame_t_trans : forall c1 c2 c3 s t, frame_t c1 c2 s t -> frame_t c2 c3 s t -> frame_t c1 c3 s t.
Proof.
  intros c1 c2 c3 s t (A1 & A2 & A3) (B1 & B2 & B3). split; [intro; rewrite B1; apply A1|].
  split; [intro; rewrite B2; apply A2|]. intros s' t' N. eapply same_trans; [apply A3|apply B3]; exact N.
Qed.

Lemma copy_columns_ok : forall l c t, NoDup (map col_name l) ->
  (forall n, In n (map col_name l) -> ca_columns c [tb_schema t; tb_name t; n] = None) ->
  exists c', copy_all copy_column c t l = Ok (with_columns t (tb_columns t ++ l), c')
    /\ frame_t c c' (tb_schema t) (tb_name t)
    /\ (forall k, ca_constraints c' k = ca_constraints c k) /\ (forall k, ca_indexes c' k = ca_indexes c k).
Proof.
  induction l as [|x l IH]; intros c t N H; cbn [copy_all].
  - exists c. rewrite app_nil_r. split; [destruct t; reflexivity|]. split; [apply frame_t_refl|auto].
  - cbn [map] in *. inversion N as [|u v N1 N2]; subst.
    unfold copy_column at 1, get_or_create_column, get_or_create.
    rewrite (H (col_name x)) by (left; reflexivity). cbn [at_pos bindr].
    cbn [tb_columns with_columns]. rewrite set_last.
    match goal with |- context [copy_all copy_column ?c1 ?t1 l] => destruct (IH c1 t1 N2) as (c' & R & F & E1 & E2) end.
    + intros n Hn. cbn [tb_schema tb_name with_columns set_columns ca_columns enter].
      rewrite upd_other; [apply H; right; exact Hn|]. apply keys3. intro Z. subst n. contradiction.
    + exists c'. rewrite R. cbn [tb_columns with_columns tb_schema tb_name tb_sql tb_virtual tb_constraints tb_indexes tb_ignore] in *.
      rewrite <- app_assoc. split; [reflexivity|]. split; [|split; [exact E1|exact E2]].
      eapply frame_t_trans; [|exact F].
      split; [reflexivity|]. split; [reflexivity|]. intros s' t' D. repeat split. intro n.
      apply (enter_away (ca_columns c) _ _ (col_name x) (Some (List.length (tb_columns t)))). exact D.
Qed.

Lemma copy_indexes_ok : forall l c t, NoDup (map ix_name l) ->
  (forall n, In n (map ix_name l) -> ca_indexes c [tb_schema t; tb_name t; n] = None) ->
  exists c', copy_all copy_index c t l = Ok (with_indexes t (tb_indexes t ++ l), c')
    /\ frame_t c c' (tb_schema t) (tb_name t).
Proof.
  induction l as [|x l IH]; intros c t N H; cbn [copy_all].
  - exists c. rewrite app_nil_r. split; [destruct t; reflexivity|]. apply frame_t_refl.
  - cbn [map] in *. inversion N as [|u v N1 N2]; subst.
    unfold copy_index at 1, get_or_create_index, get_or_create.
    rewrite (H (ix_name x)) by (left; reflexivity). cbn [at_pos bindr].
    cbn [tb_indexes with_indexes]. rewrite set_last.
    match goal with |- context [copy_all copy_index ?c1 ?t1 l] => destruct (IH c1 t1 N2) as (c' & R & F) end.
    + intros n Hn. cbn [tb_schema tb_name with_indexes set_indexes ca_indexes enter].
      rewrite upd_other; [apply H; right; exact Hn|]. apply keys3. intro Z. subst n. contradiction.
    + exists c'. rewrite R. cbn [tb_columns with_indexes tb_schema tb_name tb_sql tb_virtual tb_constraints tb_indexes tb_ignore] in *.
      rewrite <- app_assoc. split; [reflexivity|].
      eapply frame_t_trans; [|exact F].
      split; [reflexivity|]. split; [reflexivity|]. intros s' t' D. repeat split. intro n.
      apply (enter_away (ca_indexes c) _ _ (ix_name x) (Some (List.length (tb_indexes t)))). exact D.
Qed.

Lemma copy_constraints_ok : forall l c t, NoDup (map con_name l) ->
  (forall n, In n (map con_name l) -> ca_constraints c [tb_schema t; tb_name t; n] = None) ->
  exists c', copy_all copy_constraint c t l = Ok (with_constraints t (tb_constraints t ++ l), c')
    /\ frame_t c c' (tb_schema t) (tb_name t) /\ (forall k, ca_indexes c' k = ca_indexes c k).
Proof.
  induction l as [|x l IH]; intros c t N H; cbn [copy_all].
  - exists c. rewrite app_nil_r. split; [destruct t; reflexivity|]. split; [apply frame_t_refl|auto].
  - cbn [map] in *. inversion N as [|u v N1 N2]; subst.
    unfold copy_constraint at 1, get_or_create_constraint, get_or_create.
    rewrite (H (con_name x)) by (left; reflexivity). cbn [at_pos bindr].
    cbn [tb_constraints with_constraints]. rewrite set_last.
    match goal with |- context [copy_all copy_constraint ?c1 ?t1 l] => destruct (IH c1 t1 N2) as (c' & R & F & E) end.
    + intros n Hn. cbn [tb_schema tb_name with_constraints enter_constraint ca_constraints enter].
      rewrite upd_other; [apply H; right; exact Hn|]. apply keys3. intro Z. subst n. contradiction.
    + exists c'. rewrite R. cbn [tb_columns with_constraints tb_schema tb_name tb_sql tb_virtual tb_constraints tb_indexes tb_ignore] in *.
      rewrite <- app_assoc. split; [reflexivity|]. split; [|exact E].
      eapply frame_t_trans; [|exact F]. apply enter_constraint_frame.
      intros s' t' n D. apply (enter_away (ca_constraints c) _ _ (con_name x) (Some (List.length (tb_constraints t)))). exact D.
Qed.

(** What a faithful copy of a table is in this program: everything but the flag of virtual tables. *)
Definition plain_copy (t : table) : table :=
  Table (tb_schema t) (tb_name t) (tb_sql t) false (tb_columns t) (tb_constraints t) (tb_indexes t) (tb_ignore t).

Lemma copy_table_ok : forall c sc t, copyable_table (sc_name sc) t ->
  ca_tables c [sc_name sc; tb_name t] = None -> blank c (sc_name sc) (tb_name t) ->
  exists c', copy_table c sc t = Ok (with_tables sc (sc_tables sc ++ [plain_copy t]), c')
    /\ (forall k, ca_schemas c' k = ca_schemas c k)
    /\ (forall s' t', (s', t') <> (sc_name sc, tb_name t) ->
          ca_tables c' [s'; t'] = ca_tables c [s'; t'] /\ same c c' s' t').
Proof.
  intros c sc t (S & N1 & N2 & N3) E (B1 & B2 & B3 & B4 & B5).
  unfold copy_table, get_or_create_table, get_or_create. rewrite E. cbn [at_pos bindr sc_tables with_tables].
  rewrite nth_last. cbn [tb_virtual tb_columns tb_constraints tb_indexes].
  set (c1 := set_tables c _). set (t1 := Table _ _ _ _ _ _ _ _).
  destruct (copy_columns_ok (tb_columns t) c1 t1 N1) as (c2 & R2 & F2 & E2a & E2b).
  { intros n _. cbn [t1 tb_schema tb_name]. rewrite S. apply B1. }
  rewrite R2. cbn [bindr]. set (t2 := with_columns t1 _).
  destruct (copy_constraints_ok (tb_constraints t) c2 t2 N2) as (c3 & R3 & F3 & E3).
  { intros n _. cbn [t1 t2 tb_schema tb_name with_columns]. rewrite E2a, S. apply B2. }
  rewrite R3. cbn [bindr]. set (t3 := with_constraints t2 _).
  destruct (copy_indexes_ok (tb_indexes t) c3 t3 N3) as (c4 & R4 & F4).
  { intros n _. cbn [t1 t2 t3 tb_schema tb_name with_columns with_constraints]. rewrite E3, E2b, S. apply B3. }
  rewrite R4. cbn [bindr]. exists c4. split; [|].
  - rewrite set_last. reflexivity.
  - assert (F : frame_t c1 c4 (sc_name sc) (tb_name t)).
    { change (tb_schema t3) with (tb_schema t) in F4. change (tb_schema t2) with (tb_schema t) in F3.
      change (tb_schema t1) with (tb_schema t) in F2. rewrite S in *.
      eapply frame_t_trans; [exact F2|]. eapply frame_t_trans; [exact F3|exact F4]. }
    destruct F as (G1 & G2 & G3). split; [intro k; rewrite G1; reflexivity|].
    intros s' t' D. split.
    + rewrite G2. cbn [c1 set_tables ca_tables enter]. apply upd_other. intro Z. injection Z as Z1 Z2. congruence.
    + eapply same_trans; [|apply G3; exact D]. apply set_tables_same.
Qed.

Lemma copy_tables_ok : forall l c sc, Forall (copyable_table (sc_name sc)) l -> NoDup (map tb_name l) ->
  (forall t, In t (map tb_name l) -> ca_tables c [sc_name sc; t] = None /\ blank c (sc_name sc) t) ->
  exists c', copy_tables c sc l = Ok (with_tables sc (sc_tables sc ++ map plain_copy l), c')
    /\ (forall k, ca_schemas c' k = ca_schemas c k)
    /\ (forall s', s' <> sc_name sc -> forall t', ca_tables c' [s'; t'] = ca_tables c [s'; t'] /\ same c c' s' t').
Proof.
  induction l as [|t l IH]; intros c sc C N H; cbn [copy_tables].
  - exists c. cbn [map]. rewrite app_nil_r. split; [destruct sc; reflexivity|]. split; [reflexivity|].
    intros. split; [reflexivity|apply same_refl].
  - cbn [map] in *. inversion C as [|u v C1 C2]; subst. inversion N as [|u v N1 N2]; subst.
    destruct (H (tb_name t) (or_introl eq_refl)) as (H1 & H2).
    destruct (copy_table_ok c sc t C1 H1 H2) as (c1 & R1 & S1 & F1). rewrite R1. cbn [bindr].
    destruct (IH c1 (with_tables sc (sc_tables sc ++ [plain_copy t])) C2 N2) as (c2 & R2 & S2 & F2).
    + intros t' Ht'. cbn [sc_name with_tables].
      assert (D : (sc_name sc, t') <> (sc_name sc, tb_name t)) by (intro Z; injection Z as Z; subst t'; contradiction).
      destruct (F1 _ _ D) as (G1 & G2). destruct (H t' (or_intror Ht')) as (H3 & H4).
      rewrite G1. split; [exact H3|]. eapply blank_same; eassumption.
    + exists c2. rewrite R2. cbn [sc_tables sc_name sc_ignore with_tables] in *. rewrite <- app_assoc.
      split; [reflexivity|]. split; [intro k; rewrite S2; apply S1|].
      intros s' D t'. destruct (F2 s' D t') as (G1 & G2).
      assert (D' : (s', t') <> (sc_name sc, tb_name t)) by congruence.
      destruct (F1 _ _ D') as (G3 & G4). split; [congruence|]. eapply same_trans; eassumption.
Qed.

Definition schema_copy (sc : schema) : schema := Schema (sc_name sc) (map plain_copy (sc_tables sc)) (sc_ignore sc).
Lemma copy_schemas_ok : forall l st, NoDup (map sc_name l) -> Forall copyable_schema l ->
  (forall s, In s (map sc_name l) -> ca_schemas (st_cache st) [s] = None /\
     forall t, ca_tables (st_cache st) [s; t] = None /\ blank (st_cache st) s t) ->
  exists c, copy_schemas st l = Ok (State (st_schemas st ++ map schema_copy l) c).
Proof.
  induction l as [|s l IH]; intros st N C H; cbn [copy_schemas].
  - exists (st_cache st). cbn [map]. rewrite app_nil_r. destruct st. reflexivity.
  - cbn [map] in *. inversion N as [|u v N1 N2]; subst. inversion C as [|u v C1 C2]; subst.
    destruct (H (sc_name s) (or_introl eq_refl)) as (H1 & H2). destruct C1 as (C1 & C3).
    unfold copy_schema, get_or_create_schema, get_or_create. rewrite H1. cbn [at_pos bindr st_schemas st_cache].
    rewrite nth_last. cbn [sc_tables].
    match goal with |- context [copy_tables ?c1 ?sc1 _] => destruct (copy_tables_ok (sc_tables s) c1 sc1) as (c2 & R & S & F) end.
    + exact C3.
    + exact C1.
    + intros t _. cbn [sc_name]. destruct (H2 t) as (H3 & H4). split; [exact H3|].
      eapply blank_same with (c := st_cache st); [|exact H4]. repeat split.
    + rewrite R. cbn [bindr sc_tables sc_name sc_ignore with_tables app]. rewrite set_last.
      match goal with |- context [copy_schemas ?st1 l] => destruct (IH st1 N2 C2) as (c & R2) end.
      * intros s' Hs'. cbn [st_cache]. destruct (H s' (or_intror Hs')) as (H3 & H4).
        assert (D : sc_name s <> s') by (intro Z; subst s'; contradiction). split.
        -- rewrite S. cbn [set_schemas ca_schemas enter]. rewrite upd_other; [exact H3|]. congruence.
        -- intro t. destruct (F s' (not_eq_sym D) t) as (G1 & G2). destruct (H4 t) as (H5 & H6).
           rewrite G1. split; [exact H5|]. eapply blank_same; [exact G2|].
           eapply blank_same with (c := st_cache st); [|exact H6]. repeat split.
      * exists c. rewrite R2. cbn [st_schemas]. rewrite <- app_assoc. reflexivity.
Qed.

Theorem catalog_copied : forall src, NoDup (map sc_name src) -> Forall copyable_schema src ->
  write_catalog [] src = Ok (map schema_copy src).
Proof.
  intros src N C. unfold write_catalog.
  destruct (copy_schemas_ok src (new_state []) N C) as (c & R).
  - intros s _. split; [reflexivity|]. intro t. split; [reflexivity|]. repeat split.
  - rewrite R. reflexivity.
Qed.

Theorem catalog_equal : forall src, copyable src -> no_virtual src -> write_catalog [] src = Ok src.
Proof.
  intros src (N & C) V. rewrite (catalog_copied src N C). f_equal. rewrite <- (map_id src) at 2.
  apply map_ext_in. intros sc Hsc. unfold schema_copy. destruct sc as [n ts ig]. cbn in *. f_equal.
  rewrite <- (map_id ts) at 2. apply map_ext_in. intros t Ht. pose proof (V _ t Hsc Ht) as E.
  destruct t. cbn in *. unfold plain_copy. cbn. congruence.
Qed.
