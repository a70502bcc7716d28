(** Running the statements of a migration: lookups, loops and names. *)
From Coq Require Import Lia.
From Verif Require Import GoStr GoStrFacts ModelCatalog ModelCache CacheFacts ModelDdl ModelDiff ModelDiffSql SpecDiff DiffLookup DiffFacts SpecApply.

(** ** Lookups *)
Lemma qeqb_spec : forall a b, reflect (a = b) (qeqb a b).
Proof.
  intros [a1 a2] [b1 b2]. unfold qeqb. cbn [fst snd].
  destruct (beqb_spec a1 b1) as [->|N1]; [destruct (beqb_spec a2 b2) as [->|N2]|]; cbn [andb]; constructor; congruence.
Qed.
Lemma qeqb_refl : forall q, qeqb q q = true.
Proof. intro q. destruct (qeqb_spec q q); congruence. Qed.
Lemma place_qualify : forall cur s t, s <> [] -> place cur (qualify cur s t) = (s, t).
Proof.
  intros cur s t N. unfold qualify, place. destruct s as [|c s]; [congruence|]. cbn [is_empty negb andb].
  destruct (beqb_spec (c :: s) cur) as [<-|]; cbn [negb fst snd]; reflexivity.
Qed.

Section Called.
Context {A : Type} (name : A -> bytes).
Lemma called_some : forall l n a, called name l n = Some a -> In a l /\ name a = n.
Proof. intros l n a H. apply find_some in H. destruct H as (H & E). apply beqb_eq in E. auto. Qed.
Lemma called_none : forall l n, called name l n = None <-> forall a, In a l -> name a <> n.
Proof.
  intros l n. split.
  - intros H a Ha E. pose proof (find_none _ _ H a Ha) as F. cbn in F. rewrite E, beqb_refl in F. discriminate.
  - intro H. unfold called. destruct (find _ l) as [a|] eqn:F; [|reflexivity]. apply find_some in F. destruct F as (F & E).
    apply beqb_eq in E. exfalso. apply (H a F E).
Qed.
Lemma called_in : forall l a, NoDup (map name l) -> In a l -> called name l (name a) = Some a.
Proof.
  intros l a N Ha. destruct (called name l (name a)) as [b|] eqn:E.
  - apply called_some in E. destruct E as (Hb & E). f_equal. eapply NoDup_map_inj_on; eassumption.
  - exfalso. apply (proj1 (called_none _ _) E a Ha). reflexivity.
Qed.
Lemma called_is : forall l n, (exists a, called name l n = Some a) <-> In n (map name l).
Proof.
  intros l n. split.
  - intros (a & E). apply called_some in E. destruct E as (Ha & <-). apply in_map. exact Ha.
  - intro H. apply in_map_iff in H. destruct H as (a & <- & Ha). destruct (called name l (name a)) as [b|] eqn:E; [eauto|].
    exfalso. apply (proj1 (called_none _ _) E a Ha). reflexivity.
Qed.
Lemma called_none_map : forall l n, called name l n = None <-> ~ In n (map name l).
Proof.
  intros l n. rewrite called_none. split.
  - intros H Hn. apply in_map_iff in Hn. destruct Hn as (a & E & Ha). apply (H a Ha E).
  - intros H a Ha <-. apply H. apply in_map. exact Ha.
Qed.
Lemma pick_called : forall ign l n, NoDup (map name l) -> (forall a, In a l -> ign a = false) -> pick name ign l n = called name l n.
Proof.
  intros ign l n N F. rewrite pick_the by exact N. unfold the, called. clear N. induction l as [|a l IH]; [reflexivity|].
  cbn [find]. rewrite (F a (or_introl eq_refl)), andb_true_r. destruct (beqb (name a) n); [reflexivity|].
  apply IH. intros b Hb. apply F. right. exact Hb.
Qed.
End Called.

(** Functions that are changed at the names of a list: those of [l] are still to come. *)
Definition updated {A C} (name : A -> bytes) (L : list A) (g : A -> option C) (l : list A) (f : bytes -> option C) (n : bytes) : option C :=
  match called name L n with
  | Some a => if bmem n (map name l) then f n else g a
  | None => f n
  end.
Lemma updated_start : forall {A C} (name : A -> bytes) L (g : A -> option C) f n, updated name L g L f n = f n.
Proof.
  intros A C name L g f n. unfold updated. destruct (called name L n) as [a|] eqn:E; [|reflexivity].
  apply called_some in E. destruct E as (Ha & <-). rewrite (proj2 (bmem_In _ _)); [reflexivity|]. apply in_map. exact Ha.
Qed.
Lemma updated_end : forall {A C} (name : A -> bytes) L (g : A -> option C) f n,
  updated name L g [] f n = match called name L n with Some a => g a | None => f n end.
Proof. reflexivity. Qed.
Lemma updated_step : forall {A C} (name : A -> bytes) L (g : A -> option C) a l f n,
  NoDup (map name L) -> In a L -> NoDup (map name (a :: l)) ->
  put (updated name L g (a :: l) f) (name a) (g a) n = updated name L g l f n.
Proof.
  intros A C name L g a l f n N Ha Nl. unfold put, updated. cbn [map] in Nl. inversion Nl as [|? ? N1 N2]; subst.
  destruct (beqb_spec n (name a)) as [->|Ne].
  - rewrite (called_in _ _ _ N Ha). rewrite (proj2 (bmem_not_In _ _) N1). reflexivity.
  - destruct (called name L n); [|reflexivity]. cbn [map bmem existsb]. unfold bmem. cbn [existsb].
    destruct (beqb_spec n (name a)) as [->|]; [congruence|]. reflexivity.
Qed.
Lemma updated_here : forall {A C} (name : A -> bytes) L (g : A -> option C) a l f, updated name L g (a :: l) f (name a) = f (name a).
Proof.
  intros A C name L g a l f. unfold updated. destruct (called name L (name a)); [|reflexivity].
  unfold bmem. cbn [map existsb]. rewrite beqb_refl. reflexivity.
Qed.

(** ** Running *)
Lemma runs_app : forall d cur coll a b x, runs d cur coll (a ++ b) x <-> runs d cur coll a x /\ runs d cur coll b (after d cur coll a x).
Proof.
  intros d cur coll a. induction a as [|s a IH]; intros b x; cbn [app runs].
  - unfold after. cbn. tauto.
  - rewrite IH. unfold after. cbn [fold_left]. tauto.
Qed.
Lemma after_app : forall d cur coll a b x, after d cur coll (a ++ b) x = after d cur coll b (after d cur coll a x).
Proof. intros. apply fold_left_app. Qed.
Lemma loop : forall {A} d cur coll (f : A -> list stmt) (P : list A -> database -> Prop),
  (forall a l x, P (a :: l) x -> runs d cur coll (f a) x /\ P l (after d cur coll (f a) x)) ->
  forall l x, P l x -> runs d cur coll (flat_map f l) x /\ P [] (after d cur coll (flat_map f l) x).
Proof.
  intros A d cur coll f P H l. induction l as [|a l IH]; intros x Hx; [split; [exact I|exact Hx]|].
  cbn [flat_map]. rewrite after_app, runs_app. destruct (H _ _ _ Hx) as (R & Hy). destruct (IH _ Hy) as (R' & Hz). auto.
Qed.
Lemma loop1 : forall {A} d cur coll (f : A -> stmt) (P : list A -> database -> Prop),
  (forall a l x, P (a :: l) x -> allowed d cur x (f a) /\ P l (effect d cur coll x (f a))) ->
  forall l x, P l x -> runs d cur coll (map f l) x /\ P [] (after d cur coll (map f l) x).
Proof.
  intros A d cur coll f P H l. induction l as [|a l IH]; intros x Hx; [split; [exact I|exact Hx]|].
  destruct (H _ _ _ Hx) as (R & Hy). destruct (IH _ Hy) as (R' & Hz). split; [split; assumption|exact Hz].
Qed.

(** Only the table [q] is changed. *)
Definition elsewhere (q : qname) (x y : database) : Prop :=
  (forall n, db_schemas y n = db_schemas x n) /\ forall p, p <> q -> db_tables y p = db_tables x p.
Lemma elsewhere_refl : forall q x, elsewhere q x x.
Proof. split; reflexivity. Qed.
Lemma elsewhere_trans : forall q x y z, elsewhere q x y -> elsewhere q y z -> elsewhere q x z.
Proof.
  intros q x y z (A1 & A2) (B1 & B2). split; intros.
  - rewrite B1. apply A1.
  - rewrite B2 by assumption. apply A2. assumption.
Qed.
Lemma set_table_elsewhere : forall x q o, elsewhere q x (set_table x q o).
Proof.
  intros x q o. split; [reflexivity|]. intros p N. cbn. destruct (qeqb_spec p q); [congruence|reflexivity].
Qed.
Lemma set_table_at : forall x q o, db_tables (set_table x q o) q = o.
Proof. intros x q o. cbn. rewrite qeqb_refl. reflexivity. Qed.
Lemma set_table_other : forall x q o p, p <> q -> db_tables (set_table x q o) p = db_tables x p.
Proof. intros x q o p N. cbn. destruct (qeqb_spec p q); [congruence|reflexivity]. Qed.
Lemma change_at_is : forall x q f dt, db_tables x q = Some dt -> change_at x q f = set_table x q (Some (f dt)).
Proof. intros x q f dt E. unfold change_at. rewrite E. reflexivity. Qed.

(** ** Catalogs *)
Lemma located_one : forall l q t u, unique_tables l -> located l q t -> located l q u -> t = u.
Proof.
  intros l q t u (U1 & U2) (s & Hs & Ht & E) (s' & Hs' & Hu & E'). rewrite E in E'. injection E' as E1 E2.
  assert (s = s') by (eapply NoDup_map_inj_on; eassumption). subst s'.
  destruct (U2 s Hs) as (U3 & _). eapply NoDup_map_inj_on; eassumption.
Qed.
Lemma located_name : forall l q t, located l q t -> snd q = tb_name t.
Proof. intros l q t (s & _ & _ & ->). reflexivity. Qed.

Section Orderly.
Context (l : list schema) (O : orderly l).
Lemma orderly_tables : unique_tables l.
Proof. exact (proj1 (proj1 O)). Qed.
Lemma orderly_columns : forall q t, located l q t -> NoDup (map col_name (tb_columns t)).
Proof. intros q t (s & Hs & Ht & _). exact (proj1 (proj2 (proj1 O) s t Hs Ht)). Qed.
Lemma orderly_constraints : forall q t, located l q t -> NoDup (map con_name (tb_constraints t)).
Proof. intros q t (s & Hs & Ht & _). exact (proj1 (proj2 (proj2 (proj1 O) s t Hs Ht))). Qed.
Lemma orderly_indexes : forall q t, located l q t -> NoDup (map ix_name (tb_indexes t)).
Proof. intros q t (s & Hs & Ht & _). exact (proj2 (proj2 (proj2 (proj1 O) s t Hs Ht))). Qed.
Lemma orderly_schema : forall q t, located l q t -> fst q = tb_schema t /\ fst q <> [].
Proof.
  intros q t (s & Hs & Ht & ->). cbn [fst]. split; [symmetry; apply (proj2 (proj2 orderly_tables s Hs)); exact Ht|].
  apply (proj1 (proj1 (proj2 O) s Hs)).
Qed.
Lemma orderly_at : forall q t, located l q t -> q = (tb_schema t, tb_name t).
Proof.
  intros q t H. destruct q as [a b]. pose proof (located_name _ _ _ H) as E. destruct (orderly_schema _ _ H) as (E' & _).
  cbn in *. subst. reflexivity.
Qed.
Lemma find_col_called : forall q t n, located l q t -> find_col t n = called col_name (tb_columns t) n.
Proof. intros q t n H. apply pick_called; [eapply orderly_columns; exact H|]. apply (proj1 (proj2 (proj2 (proj2 O) q t H))). Qed.
Lemma find_ix_called : forall q t n, located l q t -> find_ix t n = called ix_name (tb_indexes t) n.
Proof.
  intros q t n H. apply pick_called; [eapply orderly_indexes; exact H|]. intros i Hi.
  apply (proj1 (proj2 (proj2 (proj2 (proj2 (proj2 O) q t H))) i Hi)).
Qed.
Lemma con_facts : forall q t c, located l q t -> In c (tb_constraints t) -> con_ignore c = false /\ con_name c <> [] /\ (con_schema c, con_table c) = q.
Proof. intros q t c H Hc. apply (proj1 (proj2 (proj2 (proj2 (proj2 O) q t H))) c Hc). Qed.
Lemma find_con_called : forall q t n, located l q t -> n <> [] -> find_con t n = called con_name (tb_constraints t) n.
Proof.
  intros q t n H N. unfold find_con, pick_con. rewrite (proj2 (some_name_spec n) N).
  apply pick_called; [eapply orderly_constraints; exact H|]. intros c Hc. apply (con_facts _ _ _ H Hc).
Qed.
End Orderly.

Lemma only_cols_in : forall l l' q a b c, orderly l -> orderly l' -> located l q a -> located l' q b ->
  (In c (only_cols a b) <-> In c (tb_columns a) /\ called col_name (tb_columns b) (col_name c) = None).
Proof.
  intros l l' q a b c O O' La Lb. unfold only_cols. rewrite gone_in, (find_col_called _ O' _ _ _ Lb).
  split; [tauto|]. intros (H1 & H2). split; [exact H1|]. split; [|exact H2].
  apply (proj1 (proj2 (proj2 (proj2 O) q a La)) c H1).
Qed.
Lemma only_cons_in : forall l l' q a b c, orderly l -> orderly l' -> located l q a -> located l' q b ->
  (In c (only_cons a b) <-> In c (tb_constraints a) /\ called con_name (tb_constraints b) (con_name c) = None).
Proof.
  intros l l' q a b c O O' La Lb. unfold only_cons. rewrite gone_in. split.
  - intros (H1 & H2 & H3). split; [exact H1|]. rewrite (find_con_called _ O' _ _ _ Lb) in H3; [exact H3|].
    apply (con_facts _ O _ _ _ La H1).
  - intros (H1 & H2). destruct (con_facts _ O _ _ _ La H1) as (I1 & I2 & _). split; [exact H1|]. split; [exact I1|].
    rewrite (find_con_called _ O' _ _ _ Lb) by exact I2. exact H2.
Qed.
Lemma only_ixs_in : forall l l' q a b c, orderly l -> orderly l' -> located l q a -> located l' q b ->
  (In c (only_ixs a b) <-> In c (tb_indexes a) /\ called ix_name (tb_indexes b) (ix_name c) = None).
Proof.
  intros l l' q a b c O O' La Lb. unfold only_ixs. rewrite gone_in, (find_ix_called _ O' _ _ _ Lb).
  split; [tauto|]. intros (H1 & H2). split; [exact H1|]. split; [|exact H2].
  apply (proj1 (proj2 (proj2 (proj2 (proj2 (proj2 O) q a La))) c H1)).
Qed.
Lemma pairs_cols_in : forall l l' q a b x y, orderly l -> orderly l' -> located l q a -> located l' q b ->
  (In (x, y) (pairs_cols a b) <-> In y (tb_columns b) /\ called col_name (tb_columns a) (col_name y) = Some x).
Proof.
  intros l l' q a b x y O O' La Lb. unfold pairs_cols. rewrite both_in, (find_col_called _ O _ _ _ La).
  split; [tauto|]. intros (H1 & H2). split; [exact H1|]. split; [|exact H2].
  apply (proj1 (proj2 (proj2 (proj2 O') q b Lb)) y H1).
Qed.
Lemma pairs_cons_in : forall l l' q a b x y, orderly l -> orderly l' -> located l q a -> located l' q b ->
  (In (x, y) (pairs_cons a b) <-> In y (tb_constraints b) /\ called con_name (tb_constraints a) (con_name y) = Some x).
Proof.
  intros l l' q a b x y O O' La Lb. unfold pairs_cons. rewrite both_in. split.
  - intros (H1 & H2 & H3). split; [exact H1|]. rewrite (find_con_called _ O _ _ _ La) in H3; [exact H3|].
    apply (con_facts _ O' _ _ _ Lb H1).
  - intros (H1 & H2). destruct (con_facts _ O' _ _ _ Lb H1) as (I1 & I2 & _). split; [exact H1|]. split; [exact I1|].
    rewrite (find_con_called _ O _ _ _ La) by exact I2. exact H2.
Qed.
Lemma NoDup_filter_map : forall {A C} (f : A -> C) (p : A -> bool) l, NoDup (map f l) -> NoDup (map f (filter p l)).
Proof.
  intros A C f p l. induction l as [|a l IH]; intro N; [constructor|]. cbn [map] in N. inversion N as [|? ? N1 N2]; subst.
  cbn [filter]. destruct (p a); [|apply IH; exact N2]. cbn [map]. constructor; [|apply IH; exact N2].
  intro H. apply N1. apply in_map_iff in H. destruct H as (b & E & H). apply filter_In in H. rewrite <- E. apply in_map. apply H.
Qed.
Lemma gone_nodup : forall {A} (name : A -> bytes) ign f l, NoDup (map name l) -> NoDup (map name (gone name ign f l)).
Proof. intros A name ign f l N. apply NoDup_filter_map. exact N. Qed.
Lemma both_nodup : forall {A} (name : A -> bytes) ign f l, NoDup (map name l) -> NoDup (map (fun p => name (snd p)) (both name ign f l)).
Proof.
  intros A name ign f l. induction l as [|a l IH]; intro N; [constructor|]. cbn [map] in N. inversion N as [|? ? N1 N2]; subst.
  cbn [both flat_map]. fold (both name ign f l). destruct (ign a); [apply IH; exact N2|]. destruct (f (name a)) as [b|]; [|apply IH; exact N2].
  cbn [app map snd]. constructor; [|apply IH; exact N2]. intro H. apply N1. apply in_map_iff in H. destruct H as ((x & y) & E & H).
  apply both_in in H. cbn in E. rewrite <- E. apply in_map. apply H.
Qed.

Lemma is_a_key_spec : forall c, is_a_key c = true <-> unique_key c.
Proof. intro c. unfold is_a_key, unique_key. rewrite orb_true_iff, !beqb_eq. reflexivity. Qed.
Lemma is_key_spec : forall c, is_key c = true <-> unique_key c.
Proof. exact is_a_key_spec. Qed.
Lemma is_pkey_spec : forall c, is_pkey c = true <-> primary c.
Proof. intro c. apply beqb_eq. Qed.
Lemma is_fkey_spec : forall c, is_fkey c = true <-> foreign c.
Proof. intro c. apply beqb_eq. Qed.
Lemma key_not_foreign : forall c, unique_key c -> ~ foreign c.
Proof. intros c [E|E] F; unfold foreign in F; rewrite E in F; discriminate. Qed.
Lemma primary_key_is : forall c, primary c -> unique_key c.
Proof. intros c H. left. exact H. Qed.
