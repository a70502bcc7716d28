(** What the plan contains. *)
From Coq Require Import Lia Permutation.
From Verif Require Import GoStr GoStrFacts ModelCatalog ModelCache CacheFacts ModelDdl ModelDiff ModelDiffSql SpecDiff DiffLookup DiffFacts DiffSelf.

Definition ch_drop_schema (c : change) : list schema := match c with ChDropSchema s => [s] | _ => [] end.
Definition ch_create_schema (c : change) : list bytes := match c with ChCreateSchema s => [s] | _ => [] end.
Definition ch_drop_table (c : change) : list table := match c with ChDropTable t => [t] | _ => [] end.
Definition ch_create_table (c : change) : list table := match c with ChCreateTable t => [t] | _ => [] end.
Definition ch_alter (c : change) : list alter := match c with ChAlterTable a => [a] | _ => [] end.
Definition ch_warn (c : change) : list (bytes * bytes * bytes) := match c with ChWarn s t n => [(s, t, n)] | _ => [] end.
Definition ch_drop_key (c : change) : list constraint := match c with ChDropFkey k | ChRecreateFkey k => [k] | _ => [] end.
Definition ch_fast_key (c : change) : list constraint := match c with ChFastFkey k => [k] | _ => [] end.
Definition ch_add_key (c : change) : list constraint := match c with ChAddFkey k => [k] | _ => [] end.
Definition ch_recreate_key (c : change) : list constraint := match c with ChRecreateFkey k => [k] | _ => [] end.

Lemma record_lists : forall d l p p', record_all d p l = Ok p' ->
  pl_drop_schemas p' = pl_drop_schemas p ++ flat_map ch_drop_schema l
  /\ pl_create_schemas p' = pl_create_schemas p ++ flat_map ch_create_schema l
  /\ pl_drop_tables p' = pl_drop_tables p ++ flat_map ch_drop_table l
  /\ pl_create_tables p' = pl_create_tables p ++ flat_map ch_create_table l
  /\ pl_alters p' = pl_alters p ++ flat_map ch_alter l
  /\ pl_warnings p' = pl_warnings p ++ flat_map ch_warn l.
Proof.
  intros d l. induction l as [|c l IH]; intros p p' H.
  - cbn in H. injection H as <-. cbn. rewrite !app_nil_r. auto 8.
  - cbn [record_all] in H. apply bindr_inv in H. destruct H as (q & Q & H).
    specialize (IH _ _ H). destruct IH as (I1 & I2 & I3 & I4 & I5 & I6).
    rewrite I1, I2, I3, I4, I5, I6. clear I1 I2 I3 I4 I5 I6 H.
    cbn [flat_map]. rewrite !app_assoc.
    assert (E : pl_drop_schemas q = pl_drop_schemas p ++ ch_drop_schema c
      /\ pl_create_schemas q = pl_create_schemas p ++ ch_create_schema c
      /\ pl_drop_tables q = pl_drop_tables p ++ ch_drop_table c
      /\ pl_create_tables q = pl_create_tables p ++ ch_create_table c
      /\ pl_alters q = pl_alters p ++ ch_alter c
      /\ pl_warnings q = pl_warnings p ++ ch_warn c).
    { destruct p as [dk dss css dts cts als fk ak ws]. unfold record_change in Q.
      destruct c as [s|n|t|t|a|k|k|k|k|s t n].
      all: try (injection Q as <-; cbn; rewrite ?app_nil_r; auto 8; fail).
      - destruct d; injection Q as <-; cbn; rewrite !app_nil_r; auto 8.
      - destruct (gr_pos ak (tables_id k)) as [m|].
        + destruct (nth_error (gr_list fk) m); [|discriminate]. injection Q as <-. cbn. rewrite !app_nil_r. auto 8.
        + injection Q as <-. cbn. rewrite !app_nil_r. auto 8. }
    destruct E as (E1 & E2 & E3 & E4 & E5 & E6). rewrite E1, E2, E3, E4, E5, E6. auto 8.
Qed.

(** Groups of keys: the positions are those of groups, and a group is not empty. *)
Definition groups_ok (g : groups) : Prop :=
  (forall k n, gr_pos g k = Some n -> n < List.length (gr_list g)) /\ Forall (fun l => l <> []) (gr_list g).
Definition keys (g : groups) : list constraint := concat (gr_list g).

Lemma append_to_length : forall n c l, List.length (append_to n c l) = List.length l.
Proof. intros n c l. unfold append_to. apply set_nth_length. Qed.
Lemma append_to_keys : forall l n c, n < List.length l -> Permutation (concat (append_to n c l)) (concat l ++ [c]).
Proof.
  unfold append_to. induction l as [|x l IH]; intros n c H; [cbn in H; lia|].
  destruct n as [|n]; cbn [set_nth nth concat].
  - rewrite <- !app_assoc. apply Permutation_app_head. apply Permutation_app_comm.
  - rewrite <- app_assoc. apply Permutation_app_head. apply IH. cbn in H. lia.
Qed.
Lemma append_to_nonempty : forall l n c, Forall (fun l : list constraint => l <> []) l -> Forall (fun l => l <> []) (append_to n c l).
Proof.
  intros l n c F. unfold append_to. apply Forall_set_nth; [exact F|]. intro Z. apply app_eq_nil in Z. destruct Z. discriminate.
Qed.

Lemma no_groups_ok : groups_ok no_groups.
Proof. split; [intros k n H; discriminate|constructor]. Qed.
Lemma alone_ok : forall g c, groups_ok g -> groups_ok (alone g c) /\ keys (alone g c) = keys g ++ [c].
Proof.
  intros g c (P & F). split; [split|].
  - intros k n H. cbn in *. rewrite app_length. cbn. specialize (P k n H). lia.
  - cbn. apply Forall_app. split; [exact F|]. repeat constructor. discriminate.
  - unfold keys. cbn. rewrite concat_app. cbn. reflexivity.
Qed.
Lemma appended_ok : forall g c n, groups_ok g -> gr_pos g (tables_id c) = Some n ->
  groups_ok (Groups (append_to n c (gr_list g)) (gr_pos g))
  /\ Permutation (keys (Groups (append_to n c (gr_list g)) (gr_pos g))) (keys g ++ [c]).
Proof.
  intros g c n (P & F) E. split; [split|].
  - intros k m H. cbn in *. rewrite append_to_length. apply (P k). exact H.
  - apply append_to_nonempty. exact F.
  - apply append_to_keys. apply (P _ _ E).
Qed.
Lemma add_key_ok : forall g c, groups_ok g -> groups_ok (add_key g c) /\ Permutation (keys (add_key g c)) (keys g ++ [c]).
Proof.
  intros g c G. unfold add_key. destruct (gr_pos g (tables_id c)) as [n|] eqn:E; [apply appended_ok; assumption|].
  destruct G as (P & F). split; [split|].
  - intros k n H. cbn in *. rewrite app_length. cbn. unfold upd in H. destruct (keqb (tables_id c) k).
    + injection H as <-. lia.
    + specialize (P k n H). lia.
  - cbn. apply Forall_app. split; [exact F|]. repeat constructor. discriminate.
  - unfold keys. cbn. rewrite concat_app. reflexivity.
Qed.
Definition enter_key (d : dialect) : groups -> constraint -> groups := match d with MySQL => alone | _ => add_key end.
Lemma enter_key_ok : forall d g c, groups_ok g -> groups_ok (enter_key d g c) /\ Permutation (keys (enter_key d g c)) (keys g ++ [c]).
Proof.
  intros d g c G.
  assert (A : groups_ok (alone g c) /\ Permutation (keys (alone g c)) (keys g ++ [c])).
  { destruct (alone_ok g c G) as (A & E). rewrite E. auto. }
  destruct d; try (apply add_key_ok; exact G). exact A.
Qed.

Definition plan_ok (p : plan) : Prop := groups_ok (pl_drop_fkeys p) /\ groups_ok (pl_fast_fkeys p) /\ groups_ok (pl_add_fkeys p).
Lemma empty_plan_ok : plan_ok empty_plan.
Proof. repeat split; try (intros k n H; discriminate); constructor. Qed.

Definition fast_of (d : dialect) (c : change) : list constraint := match d with MySQL => [] | _ => ch_fast_key c end.
Definition add_of (d : dialect) (c : change) : list constraint := match d with MySQL => ch_fast_key c ++ ch_add_key c | _ => ch_add_key c end.

Lemma record_one_key : forall d p c q, plan_ok p -> record_change d p c = Ok q ->
  plan_ok q /\ Permutation (keys (pl_drop_fkeys q)) (keys (pl_drop_fkeys p) ++ ch_drop_key c)
  /\ Permutation (keys (pl_fast_fkeys q)) (keys (pl_fast_fkeys p) ++ fast_of d c)
  /\ (ch_recreate_key c = [] -> Permutation (keys (pl_add_fkeys q)) (keys (pl_add_fkeys p) ++ add_of d c)).
Proof.
  intros d p c q (G1 & G2 & G3) Q. destruct p as [dk dss css dts cts als fk ak ws]. cbn in G1, G2, G3.
  unfold record_change in Q. fold (enter_key d) in Q.
  destruct c as [s|n|t|t|a|k|k|k|k|s t n].
  all: try (injection Q as <-; unfold plan_ok, fast_of, add_of; cbn; destruct d; cbn; rewrite ?app_nil_r; auto 8; fail).
  - injection Q as <-. destruct (enter_key_ok d dk k G1) as (E1 & E2). unfold plan_ok, fast_of, add_of; cbn.
    destruct d; cbn; rewrite ?app_nil_r; auto 8.
  - unfold plan_ok, fast_of, add_of.
    pose proof (enter_key_ok d fk k G2) as (E1 & E2). pose proof (enter_key_ok d ak k G3) as (E3 & E4).
    destruct d; injection Q as <-; cbn in *; rewrite ?app_nil_r; auto 8.
  - injection Q as <-. destruct (enter_key_ok d ak k G3) as (E1 & E2). unfold plan_ok, fast_of, add_of; cbn.
    destruct d; cbn; rewrite ?app_nil_r; auto 8.
  - set (dk' := match gr_pos dk (tables_id k) with
                | Some n => Groups (append_to n k (gr_list dk)) (gr_pos dk)
                | None => alone dk k
                end) in *.
    assert (D : groups_ok dk' /\ Permutation (keys dk') (keys dk ++ [k])).
    { subst dk'. destruct (gr_pos dk (tables_id k)) as [n|] eqn:E.
      - apply appended_ok; assumption.
      - destruct (alone_ok dk k G1) as (A & B0). rewrite B0. auto. }
    clearbody dk'. destruct D as (D1 & D2).
    destruct (gr_pos ak (tables_id k)) as [m|] eqn:M.
    + destruct (nth_error (gr_list fk) m) as [x|] eqn:X; [|discriminate]. injection Q as <-.
      unfold plan_ok, fast_of, add_of; cbn. destruct G3 as (P & F).
      split; [split; [exact D1|split; [exact G2|split]]|].
      * intros k' n H. cbn in *. rewrite set_nth_length. apply (P k'). exact H.
      * cbn. apply Forall_set_nth; [exact F|]. intro Z. apply app_eq_nil in Z. destruct Z. discriminate.
      * split; [exact D2|]. split; [destruct d; rewrite app_nil_r; reflexivity|discriminate].
    + injection Q as <-. unfold plan_ok, fast_of, add_of; cbn. destruct (alone_ok ak k G3) as (A & _).
      split; [split; [exact D1|split; [exact G2|exact A]]|]. split; [exact D2|].
      split; [destruct d; rewrite app_nil_r; reflexivity|discriminate].
Qed.

Lemma record_keys : forall d l p p', plan_ok p -> record_all d p l = Ok p' ->
  plan_ok p' /\ Permutation (keys (pl_drop_fkeys p')) (keys (pl_drop_fkeys p) ++ flat_map ch_drop_key l)
  /\ Permutation (keys (pl_fast_fkeys p')) (keys (pl_fast_fkeys p) ++ flat_map (fast_of d) l)
  /\ (flat_map ch_recreate_key l = [] ->
      Permutation (keys (pl_add_fkeys p')) (keys (pl_add_fkeys p) ++ flat_map (add_of d) l)).
Proof.
  intros d l. induction l as [|c l IH]; intros p p' G H.
  - cbn in H. injection H as <-. cbn. rewrite !app_nil_r. auto.
  - cbn [record_all] in H. apply bindr_inv in H. destruct H as (q & Q & H).
    destruct (record_one_key _ _ _ _ G Q) as (G' & A1 & A2 & A3).
    destruct (IH _ _ G' H) as (G'' & B1 & B2 & B3). split; [exact G''|].
    cbn [flat_map]. rewrite !app_assoc. split; [|split].
    + rewrite B1. apply Permutation_app_tail. exact A1.
    + rewrite B2. apply Permutation_app_tail. exact A2.
    + intro E. apply app_eq_nil in E. destruct E as (E1 & E2). rewrite (B3 E2). apply Permutation_app_tail. exact (A3 E1).
Qed.

(** Without keys to recreate recording cannot fail. *)
Lemma record_total : forall d l p, flat_map ch_recreate_key l = [] -> exists p', record_all d p l = Ok p'.
Proof.
  intros d l. induction l as [|c l IH]; intros p E; [exists p; reflexivity|].
  cbn [flat_map] in E. apply app_eq_nil in E. destruct E as (E1 & E2). cbn [record_all].
  assert (Q : exists q, record_change d p c = Ok q).
  { destruct p. destruct c; cbn; try (eexists; reflexivity). discriminate. }
  destruct Q as (q & Q). rewrite Q. cbn [bindr]. apply IH. exact E2.
Qed.

(** ** Statements *)
Lemma forward_number : forall prefix l, forward (number prefix l) = flat_map ps_stmts l.
Proof.
  intros prefix l. unfold number. generalize 1. induction l as [|p l IH]; intro n; [reflexivity|].
  cbn [number_from flat_map]. rewrite <- (IH (S n)). unfold forward.
  destruct (ps_undo p); reflexivity.
Qed.
