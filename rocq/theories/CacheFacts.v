(** Proofs about the catalog cache. *)
From Coq Require Import Lia FinFun.
From Verif Require Import GoStr GoStrFacts ModelCatalog ModelCache SpecCache.

Local Arguments PRIMARY_KEY : simpl never.
Local Arguments FOREIGN_KEY : simpl never.

(** ** Keys *)
Lemma cache_key_eq : forall a b, keqb a b = true <-> a = b.
Proof.
  induction a as [|x a IH]; intros [|y b]; cbn; try (split; congruence).
  rewrite andb_true_iff, beqb_eq, IH. split; [intros [-> ->]; reflexivity|].
  intro H; injection H; auto.
Qed.
Lemma keqb_refl : forall a, keqb a a = true.
Proof. intro a. apply cache_key_eq. reflexivity. Qed.
Lemma upd_same : forall {V} (m : key -> V) k v, upd m k v k = v.
Proof. intros. unfold upd. rewrite keqb_refl. reflexivity. Qed.
Lemma upd_other : forall {V} (m : key -> V) k v k', k <> k' -> upd m k v k' = m k'.
Proof.
  intros V m k v k' N. unfold upd. destruct (keqb k k') eqn:E; [|reflexivity].
  apply cache_key_eq in E. contradiction.
Qed.

(** ** Positions *)
Lemma set_nth_length : forall {A} (l : list A) i a, List.length (set_nth i a l) = List.length l.
Proof. induction l as [|x l IH]; intros [|i] a; cbn; auto. Qed.
Lemma set_nth_same : forall {A} (l : list A) i a b, nth_error l i = Some b -> nth_error (set_nth i a l) i = Some a.
Proof. induction l as [|x l IH]; intros [|i] a b H; cbn in *; try discriminate; eauto. Qed.
Lemma set_nth_other : forall {A} (l : list A) i j a, i <> j -> nth_error (set_nth i a l) j = nth_error l j.
Proof. induction l as [|x l IH]; intros [|i] [|j] a H; cbn; try congruence; auto. Qed.
Lemma set_nth_In : forall {A} (l : list A) i a b, In b (set_nth i a l) -> b = a \/ In b l.
Proof.
  induction l as [|x l IH]; intros [|i] a b H; cbn in *; auto.
  - destruct H as [H|H]; auto.
  - destruct H as [H|H]; auto. destruct (IH _ _ _ H); auto.
Qed.
Lemma nth_last : forall {A} (l : list A) a, nth_error (l ++ [a]) (List.length l) = Some a.
Proof. intros. rewrite nth_error_app2 by lia. rewrite Nat.sub_diag. reflexivity. Qed.
Lemma nth_snoc : forall {A} (l : list A) a j b, nth_error (l ++ [a]) j = Some b ->
  (j < List.length l /\ nth_error l j = Some b) \/ (j = List.length l /\ b = a).
Proof.
  intros A l a j b H.
  destruct (Nat.lt_ge_cases j (List.length l)) as [L|L].
  - left. rewrite nth_error_app1 in H by assumption. auto.
  - right. rewrite nth_error_app2 in H by assumption.
    destruct (j - List.length l) as [|k] eqn:E; cbn in H.
    + injection H as <-. split; [lia|reflexivity].
    + destruct k; discriminate.
Qed.

(** ** One list and the part of the cache for it *)
Definition good {A} (ok : bytes -> Prop) (name : A -> bytes) (ign : A -> bool) (l : list A)
  (m : bytes -> option nat) : Prop :=
  (forall n i, m n = Some i -> exists a, nth_error l i = Some a /\ name a = n
     /\ (ok n -> forall j b, nth_error l j = Some b -> name b = n -> ign b = false -> j = i))
  /\ (forall n, ok n -> m n = None -> forall a, In a l -> name a <> n).

Lemma good_ext : forall A ok name ign (l : list A) m m',
  (forall n, m' n = m n) -> good ok name ign l m -> good ok name ign l m'.
Proof.
  intros A ok name ign l m m' E [G1 G2]. split.
  - intros n i H. apply G1. rewrite <- E. exact H.
  - intros n O H. apply G2; [exact O|]. rewrite <- E. exact H.
Qed.

Lemma good_total : forall A ok name ign (l : list A) m n, good ok name ign l m ->
  exists r, at_pos ign l (m n) = Ok r.
Proof.
  intros A ok name ign l m n [G1 G2]. unfold at_pos.
  destruct (m n) as [i|] eqn:E; [|eauto].
  destruct (G1 _ _ E) as (a & Ha & _). rewrite Ha. eauto.
Qed.

Lemma good_found : forall A ok name ign (l : list A) m n, good ok name ign l m -> ok n ->
  found name ign l n (at_pos ign l (m n)).
Proof.
  intros A ok name ign l m n [G1 G2] O. unfold at_pos.
  destruct (m n) as [i|] eqn:E.
  - destruct (G1 _ _ E) as (a & Ha & Na & U). rewrite Ha.
    specialize (U O). destruct (ign a) eqn:Ia; cbn.
    + intros b Hb Nb. destruct (ign b) eqn:Ib; [reflexivity|].
      destruct (In_nth_error _ _ Hb) as [j Hj].
      pose proof (U j b Hj Nb Ib) as ->. congruence.
    + split; [eauto|exact U].
  - cbn. intros a Ha Na. exfalso. exact (G2 n O E a Ha Na).
Qed.

Lemma good_append : forall A ok name ign (l : list A) m a,
  good ok name ign l m -> at_pos ign l (m (name a)) = Ok None ->
  good ok name ign (l ++ [a]) (fun n => if beqb (name a) n then Some (List.length l) else m n).
Proof.
  intros A ok name ign l m a G P. pose proof G as [G1 G2]. split.
  - intros n i H. destruct (beqb (name a) n) eqn:E.
    + injection H as <-. apply beqb_eq in E. subst n.
      exists a. split; [apply nth_last|]. split; [reflexivity|].
      intros O j b Hj Nb Ib. destruct (nth_snoc _ _ _ _ Hj) as [[L Hj']|[L _]]; [|exact L].
      exfalso. pose proof (good_found _ _ _ _ _ _ (name a) G O) as F. rewrite P in F.
      cbn in F. rewrite (F b) in Ib; [discriminate| |exact Nb]. eapply nth_error_In; eassumption.
    + destruct (G1 _ _ H) as (b & Hb & Nb & U). exists b.
      assert (i < List.length l) by (apply nth_error_Some; congruence).
      split; [rewrite nth_error_app1 by assumption; exact Hb|]. split; [exact Nb|].
      intros O j c Hj Nc Ic. destruct (nth_snoc _ _ _ _ Hj) as [[L Hj']|[L ->]]; [eauto|].
      subst n. rewrite <- Nc in E. rewrite (proj2 (beqb_eq _ _) eq_refl) in E. discriminate.
  - intros n O H b Hb Nb. destruct (beqb (name a) n) eqn:E; [discriminate|].
    apply in_app_iff in Hb. destruct Hb as [Hb|[Hb|[]]].
    + exact (G2 n O H b Hb Nb).
    + subst b n. rewrite (proj2 (beqb_eq _ _) eq_refl) in E. discriminate.
Qed.

Lemma good_skip : forall A ok name ign (l : list A) m a,
  good ok name ign l m -> ~ ok (name a) -> good ok name ign (l ++ [a]) m.
Proof.
  intros A ok name ign l m a [G1 G2] N. split.
  - intros n i H. destruct (G1 _ _ H) as (b & Hb & Nb & U). exists b.
    assert (i < List.length l) by (apply nth_error_Some; congruence).
    split; [rewrite nth_error_app1 by assumption; exact Hb|]. split; [exact Nb|].
    intros O j c Hj Nc Ic. destruct (nth_snoc _ _ _ _ Hj) as [[L Hj']|[L ->]]; [eauto|].
    subst n. rewrite Nc in N. contradiction.
  - intros n O H b Hb Nb. apply in_app_iff in Hb. destruct Hb as [Hb|[Hb|[]]].
    + exact (G2 n O H b Hb Nb).
    + subst b n. contradiction.
Qed.

Lemma at_pos_some : forall A ign (l : list A) p i, at_pos ign l p = Ok (Some i) ->
  p = Some i /\ exists b, nth_error l i = Some b /\ ign b = false.
Proof.
  intros A ign l p i H. unfold at_pos in H. destruct p as [k|]; [|discriminate].
  destruct (nth_error l k) as [b|] eqn:E; [|discriminate].
  destruct (ign b) eqn:I; [discriminate|]. injection H as <-. eauto.
Qed.

Lemma good_set : forall A ok name ign (l : list A) m a i,
  good ok name ign l m -> at_pos ign l (m (name a)) = Ok (Some i) ->
  good ok name ign (set_nth i a l) m.
Proof.
  intros A ok name ign l m a i [G1 G2] P.
  destruct (at_pos_some _ _ _ _ _ P) as (Mi & b0 & Hb0 & Ib0).
  destruct (G1 _ _ Mi) as (a0 & Ha0 & Na0 & U0). rewrite Hb0 in Ha0. injection Ha0 as <-.
  assert (X : forall j b, nth_error (set_nth i a l) j = Some b -> 
            (j = i /\ b = a) \/ (j <> i /\ nth_error l j = Some b)).
  { intros j b H. destruct (Nat.eq_dec j i) as [->|N].
    - rewrite (set_nth_same l i a b0 Hb0) in H. injection H as <-. auto.
    - rewrite set_nth_other in H by congruence. auto. }
  split.
  - intros n k H. destruct (G1 _ _ H) as (b & Hb & Nb & U).
    destruct (Nat.eq_dec k i) as [->|N].
    + rewrite Hb0 in Hb. injection Hb as <-.
      exists a. split; [eapply set_nth_same; eassumption|]. split; [congruence|].
      intros O j c Hj Nc Ic. destruct (X _ _ Hj) as [[-> _]|[Nj Hj']]; [reflexivity|]. eauto.
    + exists b. split; [rewrite set_nth_other by congruence; exact Hb|]. split; [exact Nb|].
      intros O j c Hj Nc Ic. destruct (X _ _ Hj) as [[-> ->]|[Nj Hj']]; [|eauto].
      exfalso. apply N. rewrite Nc in Mi. congruence.
  - intros n O H b Hb Nb. destruct (set_nth_In _ _ _ _ Hb) as [->|Hb'].
    + subst n. congruence.
    + exact (G2 n O H b Hb' Nb).
Qed.

Lemma good_empty : forall A ok name (ign : A -> bool) m,
  (forall n, m n = None) -> good ok name ign [] m.
Proof. intros A ok name ign m E. split; intros n; [intros i H; rewrite E in H; discriminate|]. intros _ _ a []. Qed.

Lemma nth_error_same : forall {A} (l l' : list A), (forall i, nth_error l i = nth_error l' i) -> l = l'.
Proof.
  induction l as [|a l IH]; intros [|b l'] H; [reflexivity|discriminate (H 0)|discriminate (H 0)|].
  f_equal; [injection (H 0); auto|]. apply IH. intro i. exact (H (S i)).
Qed.
Lemma set_nth_id : forall {A} (l : list A) i b, nth_error l i = Some b -> set_nth i b l = l.
Proof.
  induction l as [|a l IH]; intros [|i] b H; cbn in *; try discriminate; [congruence|].
  rewrite (IH i b H). reflexivity.
Qed.
Lemma live_true : forall {A} (name : A -> bytes) ign n a, live name ign n a = true <-> name a = n /\ ign a = false.
Proof. intros. unfold live. rewrite andb_true_iff, negb_true_iff, beqb_eq. reflexivity. Qed.

Lemma put_some : forall A ok name ign (l : list A) m n i b new f,
  good ok name ign l m -> ok n -> at_pos ign l (m n) = Ok (Some i) -> nth_error l i = Some b ->
  put_in (live name ign n) new f l = set_nth i (f b) l.
Proof.
  intros A ok name ign l m n i b new f G O P Hb.
  pose proof (good_found _ _ _ _ _ _ n G O) as F. rewrite P in F. cbn in F.
  destruct F as ((a & Ha & Na & Ia) & U). rewrite Hb in Ha. injection Ha as <-.
  unfold put_in. replace (existsb (live name ign n) l) with true.
  - apply nth_error_same. intro j. rewrite nth_error_map. destruct (Nat.eq_dec j i) as [->|D].
    + rewrite (set_nth_same _ _ _ _ Hb), Hb. cbn. rewrite (proj2 (live_true name ign n b) (conj Na Ia)). reflexivity.
    + rewrite set_nth_other by congruence. destruct (nth_error l j) as [x|] eqn:Hx; [|reflexivity]. cbn.
      destruct (live name ign n x) eqn:L; [|reflexivity]. apply live_true in L. exfalso. apply D.
      exact (U j x Hx (proj1 L) (proj2 L)).
  - symmetry. apply existsb_exists. exists b. split; [eapply nth_error_In; eassumption|]. apply live_true. auto.
Qed.
Lemma put_none : forall A ok name ign (l : list A) m n new f,
  good ok name ign l m -> ok n -> at_pos ign l (m n) = Ok None ->
  put_in (live name ign n) new f l = l ++ [f new].
Proof.
  intros A ok name ign l m n new f G O P.
  pose proof (good_found _ _ _ _ _ _ n G O) as F. rewrite P in F. cbn in F.
  unfold put_in. destruct (existsb (live name ign n) l) eqn:E; [|reflexivity].
  apply existsb_exists in E. destruct E as (a & Ha & L). apply live_true in L.
  rewrite (F a Ha (proj1 L)) in L. destruct L as (_ & L). discriminate.
Qed.

(** The two kinds of update. *)
Lemma add_or_update_good : forall A ok name ign (l : list A) m a,
  good ok name ign l m ->
  exists l' e, add_or_update ign a l (m (name a)) = Ok (l', e)
    /\ good ok name ign l' (fun n => if beqb (name a) n then match e with Some i => Some i | None => m n end else m n)
    /\ (ok (name a) -> forall new, l' = put_in (live name ign (name a)) new (fun _ => a) l)
    /\ match e with
       | Some i => l' = l ++ [a] /\ i = List.length l /\ at_pos ign l (m (name a)) = Ok None
       | None => exists i b, l' = set_nth i a l /\ m (name a) = Some i /\ nth_error l i = Some b
                             /\ name b = name a /\ ign b = false
       end.
Proof.
  intros A ok name ign l m a G. destruct (good_total _ _ _ _ _ _ (name a) G) as [r R].
  unfold add_or_update. rewrite R. cbn [bindr]. destruct r as [i|].
  - exists (set_nth i a l), None. split; [reflexivity|]. split.
    + apply good_ext with (m := m); [|apply good_set; assumption].
      intro n. destruct (beqb (name a) n); reflexivity.
    + destruct (at_pos_some _ _ _ _ _ R) as (Mi & b & Hb & Ib).
      destruct (proj1 G _ _ Mi) as (b' & Hb' & Nb & _). rewrite Hb in Hb'. injection Hb' as <-. split.
      * intros O new. rewrite (put_some _ _ _ _ _ _ _ _ _ new (fun _ => a) G O R Hb). reflexivity.
      * exists i, b. auto.
  - exists (l ++ [a]), (Some (List.length l)). split; [reflexivity|]. split; [|split; [|auto]].
    + apply good_append; assumption.
    + intros O new. rewrite (put_none _ _ _ _ _ _ _ new (fun _ => a) G O R). reflexivity.
Qed.

Lemma get_or_create_good : forall A ok name ign (l : list A) m a,
  good ok name ign l m -> 
  exists l' e i, get_or_create ign a l (m (name a)) = Ok (l', e, i)
    /\ good ok name ign l' (fun n => if beqb (name a) n then match e with Some i => Some i | None => m n end else m n)
    /\ (exists b, nth_error l' i = Some b /\ name b = name a /\ (ign a = false -> ign b = false))
    /\ (ok (name a) -> l' = put_in (live name ign (name a)) a (fun x => x) l)
    /\ match e with
       | Some k => l' = l ++ [a] /\ i = List.length l /\ k = i /\ at_pos ign l (m (name a)) = Ok None
       | None => l' = l /\ at_pos ign l (m (name a)) = Ok (Some i)
       end.
Proof.
  intros A ok name ign l m a G. destruct (good_total _ _ _ _ _ _ (name a) G) as [r R].
  unfold get_or_create. rewrite R. cbn [bindr]. destruct r as [i|].
  - exists l, None, i. split; [reflexivity|]. destruct (at_pos_some _ _ _ _ _ R) as (Mi & b & Hb & Ib).
    destruct (proj1 G _ _ Mi) as (b' & Hb' & Nb & _). rewrite Hb in Hb'. injection Hb' as <-.
    split; [|split; [exists b; auto|split; [|auto]]].
    + apply good_ext with (m := m); [|assumption].
      intro n. destruct (beqb (name a) n); reflexivity.
    + intro O. rewrite (put_some _ _ _ _ _ _ _ _ _ a (fun x => x) G O R Hb). symmetry. apply set_nth_id. exact Hb.
  - exists (l ++ [a]), (Some (List.length l)), (List.length l). split; [reflexivity|].
    split; [apply good_append; assumption|].
    split; [exists a; split; [apply nth_last|auto]|]. split; [|auto].
    intro O. rewrite (put_none _ _ _ _ _ _ _ a (fun x => x) G O R). reflexivity.
Qed.

(** ** The objects of a table *)
Definition nonempty (n : bytes) : Prop := n <> [].
Definition any (n : bytes) : Prop := True.

Definition fkpos (l : list constraint) : list nat :=
  map fst (filter (fun p => beqb (con_type (snd p)) FOREIGN_KEY) (indexed l)).
Definition pk_ok (l : list constraint) (p : option nat) : Prop :=
  match p with
  | None => forall a, In a l -> con_type a <> PRIMARY_KEY
  | Some i => exists a, nth_error l i = Some a /\ con_type a = PRIMARY_KEY
  end.
Definition keys_ok (c : cache) (s t : bytes) (l : list constraint) : Prop :=
  ca_fkeys c [s; t] = fkpos l /\ pk_ok l (ca_pkeys c [s; t]).

Definition tb_inv (strict : bool) (c : cache) (s : bytes) (tb : table) : Prop :=
  tb_schema tb = s /\ tb_ignore tb = false
  /\ good any col_name col_ignore (tb_columns tb) (fun n => ca_columns c [s; tb_name tb; n])
  /\ good nonempty con_name con_ignore (tb_constraints tb) (fun n => ca_constraints c [s; tb_name tb; n])
  /\ good any ix_name ix_ignore (tb_indexes tb) (fun n => ca_indexes c [s; tb_name tb; n])
  /\ ca_constraints c [s; tb_name tb; []] = None
  /\ (strict = true -> keys_ok c s (tb_name tb) (tb_constraints tb)).

(** The two caches agree on the table. *)
Definition same (c c' : cache) (s t : bytes) : Prop :=
  (forall n, ca_columns c' [s; t; n] = ca_columns c [s; t; n])
  /\ (forall n, ca_constraints c' [s; t; n] = ca_constraints c [s; t; n])
  /\ (forall n, ca_indexes c' [s; t; n] = ca_indexes c [s; t; n])
  /\ ca_pkeys c' [s; t] = ca_pkeys c [s; t] /\ ca_fkeys c' [s; t] = ca_fkeys c [s; t].
Lemma same_refl : forall c s t, same c c s t.
Proof. repeat split. Qed.
Lemma same_trans : forall c1 c2 c3 s t, same c1 c2 s t -> same c2 c3 s t -> same c1 c3 s t.
Proof.
  intros c1 c2 c3 s t (A1 & A2 & A3 & A4 & A5) (B1 & B2 & B3 & B4 & B5).
  repeat split; intros; try congruence; rewrite ?B1, ?B2, ?B3; auto.
Qed.

Lemma tb_inv_same : forall strict c c' s tb, same c c' s (tb_name tb) -> tb_inv strict c s tb -> tb_inv strict c' s tb.
Proof.
  intros strict c c' s tb (S1 & S2 & S3 & S4 & S5) (I1 & I2 & I3 & I4 & I5 & I0 & I6).
  split; [exact I1|]. split; [exact I2|].
  split; [exact (good_ext _ _ _ _ _ _ _ S1 I3)|]. split; [exact (good_ext _ _ _ _ _ _ _ S2 I4)|].
  split; [exact (good_ext _ _ _ _ _ _ _ S3 I5)|]. split; [rewrite S2; exact I0|].
  intro E. destruct (I6 E) as (K2 & K3). unfold keys_ok. rewrite S4, S5. auto.
Qed.

Definition frame_t (c c' : cache) (s t : bytes) : Prop :=
  (forall k, ca_schemas c' k = ca_schemas c k) /\ (forall k, ca_tables c' k = ca_tables c k)
  /\ forall s' t', (s', t') <> (s, t) -> same c c' s' t'.

Lemma enter_at : forall m s t n0 e n,
  enter m [s; t; n0] e [s; t; n]
  = if beqb n0 n then match e with Some i => Some i | None => m [s; t; n] end else m [s; t; n].
Proof.
  intros m s t n0 e n. unfold enter. destruct e as [i|].
  - unfold upd. cbn. rewrite !(proj2 (beqb_eq _ _) eq_refl). cbn. rewrite andb_true_r. reflexivity.
  - destruct (beqb n0 n); reflexivity.
Qed.
Lemma enter_away : forall m s t n0 e s' t' n, (s', t') <> (s, t) ->
  enter m [s; t; n0] e [s'; t'; n] = m [s'; t'; n].
Proof.
  intros m s t n0 e s' t' n N. unfold enter. destruct e as [i|]; [|reflexivity].
  apply upd_other. intro H. injection H as -> -> ->. contradiction.
Qed.

Lemma indexed_snoc : forall {A} (l : list A) a, indexed (l ++ [a]) = indexed l ++ [(List.length l, a)].
Proof.
  intros A l a. unfold indexed. rewrite app_length. cbn [List.length].
  rewrite Nat.add_1_r, seq_S. cbn [Nat.add].
  assert (H : forall (p : list nat) (q : list A), List.length p = List.length q ->
            forall x y, combine (p ++ [x]) (q ++ [y]) = combine p q ++ [(x, y)]).
  { induction p as [|u p IH]; intros [|v q] L x y; cbn in *; try discriminate; [reflexivity|].
    rewrite IH by lia. reflexivity. }
  apply H. rewrite seq_length. reflexivity.
Qed.

Lemma fkpos_snoc : forall l a,
  fkpos (l ++ [a]) = fkpos l ++ if beqb (con_type a) FOREIGN_KEY then [List.length l] else [].
Proof.
  intros l a. unfold fkpos. rewrite indexed_snoc, filter_app, map_app. cbn [filter snd].
  destruct (beqb (con_type a) FOREIGN_KEY); reflexivity.
Qed.
Lemma fkpos_set : forall l i a b, nth_error l i = Some b -> con_type b = con_type a ->
  fkpos (set_nth i a l) = fkpos l.
Proof.
  intros l i a b. unfold fkpos, indexed. rewrite set_nth_length. generalize 0. generalize FOREIGN_KEY. intro F.
  revert i. induction l as [|x l IH]; intros [|i] s H T; cbn in *; try discriminate; auto.
  - injection H as ->. rewrite T. destruct (beqb (con_type a) F); reflexivity.
  - specialize (IH i (S s) H T). destruct (beqb (con_type x) F); cbn; rewrite ?IH; auto.
Qed.
Lemma pk_ok_snoc : forall l a p, pk_ok l p ->
  pk_ok (l ++ [a]) (if beqb (con_type a) PRIMARY_KEY then Some (List.length l) else p).
Proof.
  intros l a p P. destruct (beqb (con_type a) PRIMARY_KEY) eqn:E.
  - exists a. split; [apply nth_last|]. apply beqb_eq. exact E.
  - destruct p as [i|].
    + destruct P as (b & Hb & Tb). exists b. split; [|exact Tb].
      rewrite nth_error_app1; [exact Hb|]. apply nth_error_Some. congruence.
    + intros b Hb. apply in_app_iff in Hb. destruct Hb as [Hb|[<-|[]]]; [exact (P b Hb)|].
      intro T. rewrite T in E. rewrite (proj2 (beqb_eq _ _) eq_refl) in E. discriminate.
Qed.
Lemma pk_ok_set : forall l i a b p, nth_error l i = Some b -> con_type b = con_type a -> pk_ok l p ->
  pk_ok (set_nth i a l) p.
Proof.
  intros l i a b p H T P. destruct p as [k|].
  - destruct P as (x & Hx & Tx). destruct (Nat.eq_dec k i) as [->|N].
    + exists a. split; [eapply set_nth_same; eassumption|]. congruence.
    + exists x. rewrite set_nth_other by congruence. auto.
  - intros x Hx. destruct (set_nth_In _ _ _ _ Hx) as [->|Hx']; [|exact (P x Hx')].
    rewrite <- T. apply P. eapply nth_error_In; eassumption.
Qed.

(** ** The calls for one table *)
Definition op_ok (strict : bool) (c : cache) (s : bytes) (tb tb' : table) (r : result (table * cache)) : Prop :=
  exists c', r = Ok (tb', c') /\ tb_inv strict c' s tb' /\ tb_name tb' = tb_name tb
    /\ frame_t c c' s (tb_name tb).

Lemma column_op : forall strict c s tb l e n0,
  tb_inv strict c s tb ->
  good any col_name col_ignore l
    (fun n => if beqb n0 n then match e with Some i => Some i | None => ca_columns c [s; tb_name tb; n] end
              else ca_columns c [s; tb_name tb; n]) ->
  op_ok strict c s tb (with_columns tb l) (Ok (with_columns tb l, set_columns c (enter (ca_columns c) [tb_schema tb; tb_name tb; n0] e))).
Proof.
  intros strict c s tb l e n0 (I1 & I2 & I3 & I4 & I5 & I0 & I6) G. rewrite I1.
  eexists. split; [reflexivity|]. split.
  - split; [exact I1|]. split; [exact I2|]. split; [|auto].
    cbn. eapply good_ext; [|exact G]. intro n. apply enter_at.
  - split; [reflexivity|]. split; [reflexivity|]. split; [reflexivity|].
    intros s' t' N. repeat split. intro n. cbn. apply enter_away. exact N.
Qed.

Lemma index_op : forall strict c s tb l e n0,
  tb_inv strict c s tb ->
  good any ix_name ix_ignore l
    (fun n => if beqb n0 n then match e with Some i => Some i | None => ca_indexes c [s; tb_name tb; n] end
              else ca_indexes c [s; tb_name tb; n]) ->
  op_ok strict c s tb (with_indexes tb l) (Ok (with_indexes tb l, set_indexes c (enter (ca_indexes c) [tb_schema tb; tb_name tb; n0] e))).
Proof.
  intros strict c s tb l e n0 (I1 & I2 & I3 & I4 & I5 & I0 & I6) G. rewrite I1.
  eexists. split; [reflexivity|]. split.
  - split; [exact I1|]. split; [exact I2|]. split; [exact I3|]. split; [exact I4|]. split; [|split; [exact I0|exact I6]].
    cbn. eapply good_ext; [|exact G]. intro n. apply enter_at.
  - split; [reflexivity|]. split; [reflexivity|]. split; [reflexivity|].
    intros s' t' N. repeat split. intro n. cbn. apply enter_away. exact N.
Qed.

Lemma op_get_or_create_column : forall strict c s tb tt n ty, tb_inv strict c s tb ->
  op_ok strict c s tb (after_table (CColumn tt n ty) tb) (first (get_or_create_column c tb n ty)).
Proof.
  intros strict c s tb tt n ty I. pose proof I as (I1 & I2 & I3 & I4 & I5 & I0 & I6).
  unfold get_or_create_column, first. rewrite I1.
  destruct (get_or_create_good _ _ _ _ _ _ (new_column tb n ty) I3) as (l' & e & i & R & G & _ & L & _).
  specialize (L Logic.I). change (col_name (new_column tb n ty)) with n in *. cbn beta in R. rewrite R. cbn [bindr after_table].
  rewrite <- L, <- I1. rewrite <- I1 in G, I. apply column_op; [exact I|exact G].
Qed.
Lemma op_add_or_update_column : forall strict c s tb tt x, tb_inv strict c s tb ->
  op_ok strict c s tb (after_table (CSetColumn tt x) tb) (add_or_update_column c tb x).
Proof.
  intros strict c s tb tt x I. pose proof I as (I1 & I2 & I3 & I4 & I5 & I0 & I6).
  unfold add_or_update_column. cbn zeta. fold (owned_column tb x).
  destruct (add_or_update_good _ _ _ _ _ _ (owned_column tb x) I3) as (l' & e & R & G & L & _).
  specialize (L Logic.I x). change (col_name (owned_column tb x)) with (col_name x) in *. rewrite I1.
  cbn beta in R. rewrite R. cbn [bindr after_table].
  rewrite <- L, <- I1. rewrite <- I1 in G, I. apply column_op; [exact I|exact G].
Qed.
Lemma op_get_or_create_index : forall strict c s tb tt n cols, tb_inv strict c s tb ->
  op_ok strict c s tb (after_table (CIndex tt n cols) tb) (first (get_or_create_index c tb n cols)).
Proof.
  intros strict c s tb tt n cols I. pose proof I as (I1 & I2 & I3 & I4 & I5 & I0 & I6).
  unfold get_or_create_index, first. cbn [after_table]. set (x' := Index _ _ n _ _ _ _ _ _ _ _ _).
  destruct (get_or_create_good _ _ _ _ _ _ x' I5) as (l' & e & i & R & G & _ & L & _).
  specialize (L Logic.I). change (ix_name x') with n in *. rewrite I1.
  cbn beta in R. rewrite R. cbn [bindr].
  rewrite <- L, <- I1. rewrite <- I1 in G, I. apply index_op; [exact I|exact G].
Qed.
Lemma op_add_or_update_index : forall strict c s tb tt x, tb_inv strict c s tb ->
  op_ok strict c s tb (after_table (CSetIndex tt x) tb) (add_or_update_index c tb x).
Proof.
  intros strict c s tb tt x I. pose proof I as (I1 & I2 & I3 & I4 & I5 & I0 & I6).
  unfold add_or_update_index. cbn zeta. fold (owned_index tb x).
  destruct (add_or_update_good _ _ _ _ _ _ (owned_index tb x) I5) as (l' & e & R & G & L & _).
  specialize (L Logic.I x). change (ix_name (owned_index tb x)) with (ix_name x) in *. rewrite I1.
  cbn beta in R. rewrite R. cbn [bindr after_table].
  rewrite <- L, <- I1. rewrite <- I1 in G, I. apply index_op; [exact I|exact G].
Qed.

(** The entries of enter_constraint. *)
Lemma enter_constraint_frame : forall c tb ty m e,
  (forall s' t' n, (s', t') <> (tb_schema tb, tb_name tb) -> m [s'; t'; n] = ca_constraints c [s'; t'; n]) ->
  frame_t c (enter_constraint c tb ty m e) (tb_schema tb) (tb_name tb).
Proof.
  intros c tb ty m e M. split; [reflexivity|]. split; [reflexivity|].
  intros s' t' N.
  assert (K : [tb_schema tb; tb_name tb] <> [s'; t']) by (intro H; injection H as H1 H2; congruence).
  split; [reflexivity|]. split; [intro n; apply M; exact N|]. split; [reflexivity|].
  cbn. destruct e as [i|]; [|split; reflexivity].
  split.
  - destruct (beqb ty PRIMARY_KEY); [|reflexivity]. apply upd_other. exact K.
  - destruct (beqb ty FOREIGN_KEY); [|reflexivity]. apply upd_other. exact K.
Qed.

Lemma constraint_op : forall strict c s tb l e ty m,
  tb_inv strict c s tb ->
  good nonempty con_name con_ignore l (fun n => m [s; tb_name tb; n]) ->
  (forall s' t' n, (s', t') <> (s, tb_name tb) -> m [s'; t'; n] = ca_constraints c [s'; t'; n]) ->
  m [s; tb_name tb; []] = None ->
  (strict = true ->
     match e with
     | Some i => exists a, l = tb_constraints tb ++ [a] /\ con_type a = ty /\ i = List.length (tb_constraints tb)
     | None => l = tb_constraints tb \/
         exists i a b, l = set_nth i a (tb_constraints tb) /\ nth_error (tb_constraints tb) i = Some b
                       /\ con_type b = con_type a
     end) ->
  op_ok strict c s tb (with_constraints tb l) (Ok (with_constraints tb l, enter_constraint c tb ty m e)).
Proof.
  intros strict c s tb l e ty m (I1 & I2 & I3 & I4 & I5 & I0 & I6) G M K4 K.
  eexists. split; [reflexivity|]. split.
  - split; [exact I1|]. split; [exact I2|]. split; [exact I3|]. split; [exact G|]. split; [exact I5|].
    split; [exact K4|]. intro E. destruct (I6 E) as (K2 & K3). pose proof (K E) as K5.
    unfold keys_ok. cbn [tb_name tb_constraints with_constraints enter_constraint ca_pkeys ca_fkeys]. rewrite I1. destruct e as [i|].
    + destruct K5 as (a & -> & <- & ->). rewrite fkpos_snoc. split.
      * destruct (beqb (con_type a) FOREIGN_KEY); [rewrite upd_same, K2; reflexivity|].
        rewrite app_nil_r. exact K2.
      * pose proof (pk_ok_snoc _ a _ K3) as P.
        destruct (beqb (con_type a) PRIMARY_KEY); [rewrite upd_same|]; exact P.
    + destruct K5 as [->|(i & a & b & -> & Hb & T)]; [auto|].
      split; [rewrite K2; symmetry; eapply fkpos_set; eassumption|].
      eapply pk_ok_set; eassumption.
  - split; [reflexivity|]. pose proof (enter_constraint_frame c tb ty m e) as F.
    rewrite I1 in F. apply F. exact M.
Qed.

Lemma op_get_or_create_constraint : forall strict c s tb tt n ty cols, tb_inv strict c s tb -> n <> [] ->
  op_ok strict c s tb (after_table (CConstraint tt n ty cols) tb) (first (get_or_create_constraint c tb n ty cols)).
Proof.
  intros strict c s tb tt n ty cols I N. pose proof I as (I1 & I2 & I3 & I4 & I5 & I0 & I6).
  unfold get_or_create_constraint, first.
  destruct (get_or_create_good _ _ _ _ _ _ (new_constraint tb n ty cols) I4) as (l' & e & i & R & G & (b & Hb & Nb & _) & L & E).
  change (con_name (new_constraint tb n ty cols)) with n in *. specialize (L N). rewrite I1.
  cbn beta in R. rewrite R. cbn [bindr after_table]. rewrite <- L.
  apply constraint_op; [exact I| | | |].
  - eapply good_ext; [|exact G]. intro n'. apply enter_at.
  - intros s' t' n' D. apply enter_away. exact D.
  - rewrite enter_at. destruct (beqb n []) eqn:B; [apply beqb_eq in B; contradiction|exact I0].
  - intro S. destruct e as [k|].
    + destruct E as (-> & -> & -> & _). exists (new_constraint tb n ty cols). auto.
    + destruct E as (-> & _). auto.
Qed.

Lemma op_add_or_update_constraint : forall strict c s tb tt x, tb_inv strict c s tb ->
  (strict = true -> con_name x <> [] -> forall y, In y (tb_constraints tb) -> con_name y = con_name x ->
     con_ignore y = false -> con_type y = con_type x) ->
  op_ok strict c s tb (after_table (CSetConstraint tt x) tb) (add_or_update_constraint c tb x).
Proof.
  intros strict c s tb tt x I T. pose proof I as (I1 & I2 & I3 & I4 & I5 & I0 & I6).
  unfold add_or_update_constraint. cbn zeta. fold (owned_constraint tb x). set (x' := owned_constraint tb x).
  destruct (add_or_update_good _ _ _ _ _ _ x' I4) as (l' & e & R & G & L & E).
  change (con_name x') with (con_name x) in *. change (con_type x') with (con_type x). rewrite I1.
  cbn beta in R. rewrite R. cbn [bindr after_table]. fold x'.
  assert (W : l' = match con_name x with
                   | [] => tb_constraints tb ++ [x']
                   | _ => put_in (live con_name con_ignore (con_name x)) x (fun _ => x') (tb_constraints tb)
                   end).
  { destruct (con_name x) as [|ch nx] eqn:Nx.
    - destruct e as [k|]; [apply E|]. destruct E as (i & b & _ & Mi & _).
      pose proof (eq_trans (eq_sym Mi) I0) as D. discriminate D.
    - apply L. intro Z. discriminate Z. }
  rewrite <- W.
  apply constraint_op; [exact I| | | |].
  - destruct (con_name x) as [|ch nx] eqn:Nx.
    + rewrite W. apply good_skip; [exact I4|].
      intro H. apply H. exact Nx.
    + eapply good_ext; [|exact G]. intro n'. apply enter_at.
  - intros s' t' n' D. destruct (con_name x); [reflexivity|]. apply enter_away. exact D.
  - destruct (con_name x) as [|ch nx] eqn:Nx; [exact I0|]. rewrite enter_at. exact I0.
  - intro S. specialize (T S). destruct e as [k|].
    + destruct E as (-> & -> & _). exists x'. auto.
    + right. destruct E as (i & b & -> & Mi & Hb & Nb & Ib).
      exists i, x', b. split; [reflexivity|]. split; [exact Hb|].
      change (con_type x') with (con_type x). apply T; try assumption.
      * intro Z. rewrite Z in Mi. pose proof (eq_trans (eq_sym Mi) I0) as D. discriminate D.
      * eapply nth_error_In; eassumption.
Qed.

(** ** Schemas *)
Definition blank (c : cache) (s t : bytes) : Prop :=
  (forall n, ca_columns c [s; t; n] = None) /\ (forall n, ca_constraints c [s; t; n] = None)
  /\ (forall n, ca_indexes c [s; t; n] = None) /\ ca_pkeys c [s; t] = None /\ ca_fkeys c [s; t] = [].
Lemma blank_same : forall c c' s t, same c c' s t -> blank c s t -> blank c' s t.
Proof.
  intros c c' s t (S1 & S2 & S3 & S4 & S5) (B1 & B2 & B3 & B4 & B5).
  split; [intro n; rewrite S1; apply B1|]. split; [intro n; rewrite S2; apply B2|].
  split; [intro n; rewrite S3; apply B3|]. rewrite S4, S5. auto.
Qed.

Definition sc_inv (strict : bool) (c : cache) (sc : schema) : Prop :=
  sc_ignore sc = false
  /\ good any tb_name tb_ignore (sc_tables sc) (fun t => ca_tables c [sc_name sc; t])
  /\ Forall (tb_inv strict c (sc_name sc)) (sc_tables sc)
  /\ (forall t, ca_tables c [sc_name sc; t] = None -> blank c (sc_name sc) t).

Definition frame_s (c c' : cache) (s : bytes) : Prop :=
  (forall k, ca_schemas c' k = ca_schemas c k)
  /\ forall s', s' <> s -> forall t, ca_tables c' [s'; t] = ca_tables c [s'; t] /\ same c c' s' t.
Lemma frame_s_refl : forall c s, frame_s c c s.
Proof. intros c s. split; [reflexivity|]. intros s' _ t. split; [reflexivity|apply same_refl]. Qed.
Lemma frame_s_trans : forall c1 c2 c3 s, frame_s c1 c2 s -> frame_s c2 c3 s -> frame_s c1 c3 s.
Proof.
  intros c1 c2 c3 s (A1 & A2) (B1 & B2). split; [intro k; rewrite B1; apply A1|].
  intros s' N t. destruct (A2 s' N t) as (A3 & A4). destruct (B2 s' N t) as (B3 & B4).
  split; [congruence|]. eapply same_trans; eassumption.
Qed.
Lemma frame_ts : forall c c' s t, frame_t c c' s t -> frame_s c c' s.
Proof.
  intros c c' s t (F1 & F2 & F3). split; [exact F1|]. intros s' N t'. split; [apply F2|].
  apply F3. congruence.
Qed.

Lemma sc_inv_frame : forall strict c c' s sc, frame_s c c' s -> sc_name sc <> s ->
  sc_inv strict c sc -> sc_inv strict c' sc.
Proof.
  intros strict c c' s sc (F1 & F2) N (I1 & I2 & I3 & I4).
  split; [exact I1|]. split.
  - eapply good_ext; [|exact I2]. intro t. apply (F2 _ N t).
  - split.
    + eapply Forall_impl; [|exact I3]. intros tb T. eapply tb_inv_same; [|exact T]. apply (F2 _ N).
    + intros t E. rewrite (proj1 (F2 _ N t)) in E. eapply blank_same; [apply (F2 _ N)|]. apply I4. exact E.
Qed.

Lemma enter2_at : forall m s t0 e t,
  enter m [s; t0] e [s; t] = if beqb t0 t then match e with Some i => Some i | None => m [s; t] end else m [s; t].
Proof.
  intros m s t0 e t. unfold enter. destruct e as [i|].
  - unfold upd. cbn. rewrite !(proj2 (beqb_eq _ _) eq_refl). cbn. rewrite andb_true_r. reflexivity.
  - destruct (beqb t0 t); reflexivity.
Qed.
Lemma enter2_away : forall m s t0 e s' t, s' <> s -> enter m [s; t0] e [s'; t] = m [s'; t].
Proof.
  intros m s t0 e s' t N. unfold enter. destruct e as [i|]; [|reflexivity].
  apply upd_other. intro H. injection H as H1 H2. congruence.
Qed.

Lemma fresh_tb_inv : forall strict c s tb, tb_schema tb = s -> tb_ignore tb = false ->
  tb_columns tb = [] -> tb_constraints tb = [] -> tb_indexes tb = [] -> blank c s (tb_name tb) ->
  tb_inv strict c s tb.
Proof.
  intros strict c s tb E1 E2 E3 E4 E5 (B1 & B2 & B3 & B4 & B5).
  split; [exact E1|]. split; [exact E2|]. rewrite E3, E4, E5.
  split; [apply good_empty; exact B1|]. split; [apply good_empty; exact B2|].
  split; [apply good_empty; exact B3|]. split; [apply B2|]. intros _. split; [exact B5|].
  rewrite B4. intros a [].
Qed.

Lemma set_tables_same : forall c m s t, same c (set_tables c m) s t.
Proof. intros. repeat split. Qed.

Lemma set_tables_frame : forall c sc t e,
  frame_s c (set_tables c (enter (ca_tables c) [sc_name sc; t] e)) (sc_name sc).
Proof.
  intros c sc t e. split; [reflexivity|]. intros s' N t'. split; [|apply set_tables_same].
  apply enter2_away. exact N.
Qed.

(** A new entry for the table [t]. *)
Lemma table_entered : forall strict c sc t e l,
  sc_inv strict c sc ->
  good any tb_name tb_ignore l
    (fun t' => if beqb t t' then match e with Some i => Some i | None => ca_tables c [sc_name sc; t'] end
               else ca_tables c [sc_name sc; t']) ->
  Forall (tb_inv strict c (sc_name sc)) l ->
  sc_inv strict (set_tables c (enter (ca_tables c) [sc_name sc; t] e)) (with_tables sc l).
Proof.
  intros strict c sc t e l (I1 & I2 & I3 & I4) G F.
  split; [exact I1|]. split; [|split].
  - eapply good_ext; [|exact G]. intro t'. apply enter2_at.
  - exact F.
  - intros t' E. cbn [sc_name with_tables set_tables ca_tables] in *. rewrite enter2_at in E.
    eapply blank_same; [apply set_tables_same|]. apply I4.
    destruct (beqb t t'); [destruct e; [discriminate|exact E]|exact E].
Qed.

Lemma Forall_set_nth : forall {A} (P : A -> Prop) l i a, Forall P l -> P a -> Forall P (set_nth i a l).
Proof.
  intros A P l i a F Pa. apply Forall_forall. intros b Hb.
  destruct (set_nth_In _ _ _ _ Hb) as [->|Hb']; [exact Pa|]. rewrite Forall_forall in F. auto.
Qed.

(** No table has the name of another one, because none is ignored. *)
Lemma unique_tables : forall strict c sc i j a b, sc_inv strict c sc ->
  nth_error (sc_tables sc) i = Some a -> nth_error (sc_tables sc) j = Some b -> tb_name a = tb_name b -> i = j.
Proof.
  intros strict c sc i j a b (I1 & I2 & I3 & I4) Ha Hb N. rewrite Forall_forall in I3.
  assert (Ia : tb_ignore a = false) by (apply (I3 a); eapply nth_error_In; eassumption).
  assert (Ib : tb_ignore b = false) by (apply (I3 b); eapply nth_error_In; eassumption).
  pose proof (good_found _ _ _ _ _ _ (tb_name a) I2 I) as F.
  destruct (at_pos tb_ignore (sc_tables sc) (ca_tables c [sc_name sc; tb_name a])) as [[k|]| |]; cbn in F; try contradiction.
  - destruct F as (_ & U). rewrite (U i a), (U j b); auto.
  - rewrite (F a) in Ia; [discriminate|eapply nth_error_In; eassumption|reflexivity].
Qed.

Definition new_table (sc : schema) (t : bytes) : table := Table (sc_name sc) t [] false [] [] [] false.

Lemma get_or_create_table_ok : forall strict c sc t, sc_inv strict c sc ->
  exists sc' c' j tb, get_or_create_table c sc t = Ok (sc', c', j)
    /\ sc_inv strict c' sc' /\ sc' = with_tables sc (sc_tables sc') /\ frame_s c c' (sc_name sc)
    /\ nth_error (sc_tables sc') j = Some tb /\ tb_name tb = t
    /\ (In tb (sc_tables sc) \/ tb_constraints tb = [])
    /\ (forall f, set_nth j (f tb) (sc_tables sc')
                  = put_in (live tb_name tb_ignore t) (new_table sc t) f (sc_tables sc)).
Proof.
  intros strict c sc t I. pose proof I as (I1 & I2 & I3 & I4). unfold get_or_create_table.
  fold (new_table sc t). set (x := new_table sc t).
  destruct (get_or_create_good _ _ _ _ _ _ x I2) as (l' & e & j & R & G & (tb & Hb & Nb & _) & _ & E).
  change (tb_name x) with t in *. cbn beta in R. rewrite R. cbn [bindr].
  do 3 eexists. exists tb. split; [reflexivity|]. split.
  - apply table_entered; [exact I|exact G|]. destruct e as [k|].
    + destruct E as (-> & _ & _ & P). apply Forall_app. split; [exact I3|].
      constructor; [|constructor]. apply fresh_tb_inv; try reflexivity.
      apply I4. change (tb_name x) with t.
      destruct (ca_tables c [sc_name sc; t]) as [p|] eqn:Ep; [|reflexivity].
      exfalso. cbn in P. destruct (nth_error (sc_tables sc) p) as [y|] eqn:Hy; [|discriminate].
      rewrite Forall_forall in I3. pose proof (I3 y (nth_error_In _ _ Hy)) as (_ & Z & _).
      rewrite Z in P. discriminate.
    + destruct E as (-> & _). exact I3.
  - split; [reflexivity|]. split; [apply set_tables_frame|]. cbn [sc_tables with_tables].
    split; [exact Hb|]. split; [exact Nb|]. destruct e as [k|].
    + destruct E as (-> & -> & _ & P). rewrite nth_last in Hb. injection Hb as <-. split; [auto|].
      intro f. rewrite (put_none _ _ _ _ _ _ _ x f I2 Logic.I P). clear.
      induction (sc_tables sc) as [|y l IH]; cbn; [reflexivity|]. rewrite IH. reflexivity.
    + destruct E as (-> & P). split; [left; eapply nth_error_In; eassumption|].
      intro f. symmetry. exact (put_some _ _ _ _ _ _ _ _ _ x f I2 Logic.I P Hb).
Qed.

Lemma on_table_ok : forall strict c sc t want f, sc_inv strict c sc ->
  (forall c' tb, tb_inv strict c' (sc_name sc) tb -> tb_name tb = t ->
     In tb (sc_tables sc) \/ tb_constraints tb = [] -> op_ok strict c' (sc_name sc) tb (want tb) (f c' tb)) ->
  exists c', on_table c sc t f
      = Ok (with_tables sc (put_in (live tb_name tb_ignore t) (new_table sc t) want (sc_tables sc)), c')
    /\ sc_inv strict c' (with_tables sc (put_in (live tb_name tb_ignore t) (new_table sc t) want (sc_tables sc)))
    /\ frame_s c c' (sc_name sc).
Proof.
  intros strict c sc t want f I H. unfold on_table.
  destruct (get_or_create_table_ok _ _ _ t I) as (sc1 & c1 & j & tb & R & I' & N1' & F1 & Hj & Nt & O & W).
  assert (N1 : sc_name sc1 = sc_name sc) by (rewrite N1'; reflexivity).
  rewrite R. cbn [bindr]. rewrite Hj. pose proof I' as (J1 & J2 & J3 & J4).
  assert (T : tb_inv strict c1 (sc_name sc) tb).
  { rewrite <- N1. rewrite Forall_forall in J3. apply J3. eapply nth_error_In; eassumption. }
  destruct (H c1 tb T Nt O) as (c2 & R2 & T2 & N2 & F2). rewrite R2. cbn [bindr]. rewrite <- W.
  assert (X : forall l, with_tables sc1 l = with_tables sc l) by (intro l; rewrite N1'; reflexivity).
  rewrite <- X. eexists. split; [reflexivity|].
  assert (Fs : frame_s c1 c2 (sc_name sc)) by (eapply frame_ts; eassumption).
  destruct F2 as (F2a & F2b & F2c).
  split; [|eapply frame_s_trans; eassumption].
  assert (P : at_pos tb_ignore (sc_tables sc1) (ca_tables c1 [sc_name sc1; tb_name tb]) = Ok (Some j)).
  { pose proof (good_found _ _ _ _ _ _ (tb_name tb) J2 Logic.I) as Fo.
    destruct (at_pos tb_ignore (sc_tables sc1) (ca_tables c1 [sc_name sc1; tb_name tb])) as [[k|]| |]; cbn in Fo; try contradiction.
    - destruct Fo as (_ & U). rewrite (U j tb Hj eq_refl (proj1 (proj2 T))). reflexivity.
    - pose proof (Fo tb (nth_error_In _ _ Hj) eq_refl) as Z.
      destruct T as (_ & T & _). congruence. }
  split; [exact J1|]. split; [|split].
  - cbn [sc_tables sc_name with_tables]. eapply good_ext with (m := fun t => ca_tables c1 [sc_name sc1; t]); [intro; apply F2b|].
    apply good_set; [exact J2|]. rewrite N2. exact P.
  - cbn [sc_tables sc_name with_tables]. apply Forall_forall. intros x Hx.
    destruct (In_nth_error _ _ Hx) as [i Hi]. destruct (Nat.eq_dec i j) as [->|D].
    + rewrite (set_nth_same _ _ _ _ Hj) in Hi. injection Hi as <-. rewrite N1. exact T2.
    + rewrite set_nth_other in Hi by congruence.
      eapply tb_inv_same with (c := c1).
      * apply F2c. intro Z. injection Z as _ Z. apply D.
        eapply unique_tables; [exact I'|exact Hi|exact Hj|exact Z].
      * rewrite Forall_forall in J3. apply J3. eapply nth_error_In; eassumption.
  - cbn [sc_name with_tables]. intros t' E. rewrite F2b in E.
    eapply blank_same with (c := c1); [|apply J4; exact E].
    apply F2c. intro Z. injection Z as _ Z. subst t'. unfold at_pos in P. rewrite E in P. discriminate.
Qed.

Definition careful_at (sc : schema) (o : call) : Prop :=
  match o with
  | CIgnoreTable _ => False
  | CSetTable t =>
      tb_columns t = [] /\ tb_constraints t = [] /\ tb_indexes t = [] /\ tb_ignore t = false
      /\ ~ In (tb_name t) (map tb_name (sc_tables sc))
  | CConstraint _ n _ _ => n <> []
  | _ => True
  end.
Definition keeps_types_at (sc : schema) (o : call) : Prop :=
  match o with
  | CSetConstraint t x =>
      con_name x <> [] ->
      forall tb y, In tb (sc_tables sc) -> tb_name tb = t -> In y (tb_constraints tb) ->
        con_name y = con_name x -> con_ignore y = false -> con_type y = con_type x
  | _ => True
  end.

Lemma after_schema_name : forall o sc, sc_name (after_schema o sc) = sc_name sc.
Proof. intros o sc. destruct o; reflexivity. Qed.

Lemma run_call_ok : forall strict c sc o, sc_inv strict c sc -> careful_at sc o ->
  (strict = true -> keeps_types_at sc o) ->
  exists c', run_call c sc o = Ok (after_schema o sc, c')
    /\ sc_inv strict c' (after_schema o sc) /\ frame_s c c' (sc_name sc).
Proof.
  intros strict c sc o I C K.
  destruct o as [|t|t|t|t n ty|t x|t n ty cols|t x|t n cols|t x]; cbn [run_call after_schema table_of];
    try fold (new_table sc t).
  - exists c. split; [reflexivity|]. split; [exact I|apply frame_s_refl].
  - destruct (get_or_create_table_ok _ _ _ t I) as (sc1 & c1 & j & tb & R & I' & N1 & F1 & Hj & _ & _ & W).
    unfold first. rewrite R. cbn [bindr]. exists c1.
    specialize (W (after_table (CTable t))). cbn [after_table] in W. rewrite (set_nth_id _ _ _ Hj) in W.
    fold (new_table sc t). change (fun t0 : table => t0) with (after_table (CTable t)) in W. rewrite <- W, <- N1. auto.
  - destruct C as (C1 & C2 & C3 & C4 & C5). pose proof I as (I1 & I2 & I3 & I4).
    unfold add_or_update_table. cbn zeta. set (x := Table _ _ _ _ _ _ _ _).
    change (tb_name x) with (tb_name t).
    destruct (ca_tables c [sc_name sc; tb_name t]) as [p|] eqn:Ep.
    + exfalso. destruct (proj1 I2 _ _ Ep) as (y & Hy & Ny & _). apply C5. rewrite <- Ny.
      apply in_map. eapply nth_error_In; eassumption.
    + cbn. eexists. split; [reflexivity|]. split.
      * apply (table_entered strict c sc (tb_name t) (Some (List.length (sc_tables sc)))); [exact I| |].
        -- assert (P : at_pos tb_ignore (sc_tables sc) (ca_tables c [sc_name sc; tb_name x]) = Ok None)
             by (change (tb_name x) with (tb_name t); rewrite Ep; reflexivity).
           exact (good_append _ _ _ _ _ (fun n => ca_tables c [sc_name sc; n]) x I2 P).
        -- apply Forall_app. split; [exact I3|]. constructor; [|constructor].
           apply fresh_tb_inv; try assumption; try reflexivity. apply I4. exact Ep.
      * apply (set_tables_frame c sc (tb_name t) (Some (List.length (sc_tables sc)))).
  - contradiction.
  - apply on_table_ok; [exact I|]. intros. apply op_get_or_create_column. assumption.
  - apply on_table_ok; [exact I|]. intros. apply op_add_or_update_column. assumption.
  - apply on_table_ok; [exact I|]. intros. apply op_get_or_create_constraint; assumption.
  - apply on_table_ok; [exact I|]. intros c' tb T N O. apply op_add_or_update_constraint; [assumption|].
    intros S X y Hy Ny Iy. destruct O as [O|O]; [|rewrite O in Hy; contradiction].
    exact (K S X tb y O N Hy Ny Iy).
  - apply on_table_ok; [exact I|]. intros. apply op_get_or_create_index. assumption.
  - apply on_table_ok; [exact I|]. intros. apply op_add_or_update_index. assumption.
Qed.

(** ** The catalog *)
Definition st_inv (strict : bool) (st : state) : Prop :=
  let c := st_cache st in
  good any sc_name sc_ignore (st_schemas st) (fun s => ca_schemas c [s])
  /\ Forall (sc_inv strict c) (st_schemas st)
  /\ (forall s, ca_schemas c [s] = None -> forall t, ca_tables c [s; t] = None /\ blank c s t).

Lemma enter1_at : forall m s0 e s,
  enter m [s0] e [s] = if beqb s0 s then match e with Some i => Some i | None => m [s] end else m [s].
Proof.
  intros m s0 e s. unfold enter. destruct e as [i|].
  - unfold upd. cbn. rewrite andb_true_r. reflexivity.
  - destruct (beqb s0 s); reflexivity.
Qed.

Lemma set_schemas_sc_inv : forall strict c m sc, sc_inv strict c sc -> sc_inv strict (set_schemas c m) sc.
Proof.
  intros strict c m sc (I1 & I2 & I3 & I4). split; [exact I1|]. split; [exact I2|]. split.
  - eapply Forall_impl; [|exact I3]. intros tb T. eapply tb_inv_same; [|exact T]. repeat split.
  - intros t E. eapply blank_same with (c := c); [repeat split|]. apply I4. exact E.
Qed.

Lemma get_or_create_schema_ok : forall strict st s, st_inv strict st ->
  exists st' i sc, get_or_create_schema st s = Ok (st', i) /\ st_inv strict st'
    /\ nth_error (st_schemas st') i = Some sc /\ sc_name sc = s
    /\ (In sc (st_schemas st) \/ sc_tables sc = [])
    /\ (forall f, set_nth i (f sc) (st_schemas st')
                  = put_in (live sc_name sc_ignore s) (Schema s [] false) f (st_schemas st)).
Proof.
  intros strict st s I. pose proof I as (I1 & I2 & I3). unfold get_or_create_schema.
  match goal with |- context [get_or_create _ ?a _ _] => set (x := a) end.
  destruct (get_or_create_good _ _ _ _ _ _ x I1) as (l' & e & i & R & G & (sc & Hsc & Nsc & _) & _ & E).
  change (sc_name x) with s in *. cbn beta in R. rewrite R. cbn [bindr].
  do 2 eexists. exists sc. split; [reflexivity|]. cbn [st_schemas].
  split; [|split; [exact Hsc|split; [exact Nsc|]]].
  - split; [|split].
    + eapply good_ext; [|exact G]. intro s'. apply enter1_at.
    + cbn [st_schemas st_cache]. 
      assert (F : Forall (sc_inv strict (set_schemas (st_cache st) (enter (ca_schemas (st_cache st)) [s] e))) (st_schemas st)).
      { eapply Forall_impl; [|exact I2]. intros y. apply set_schemas_sc_inv. }
      destruct e as [k|].
      * destruct E as (-> & _ & _ & P). apply Forall_app. split; [exact F|].
        constructor; [|constructor]. apply set_schemas_sc_inv.
        assert (Q : ca_schemas (st_cache st) [s] = None).
        { destruct (ca_schemas (st_cache st) [s]) as [p|] eqn:Ep; [|reflexivity].
          exfalso. cbn in P. destruct (nth_error (st_schemas st) p) as [y|] eqn:Hy; [|discriminate].
          rewrite Forall_forall in I2. pose proof (I2 y (nth_error_In _ _ Hy)) as (Z & _).
          rewrite Z in P. discriminate. }
        split; [reflexivity|]. split; [|split; [constructor|]].
        -- apply good_empty. intro t. apply (I3 s Q t).
        -- intros t _. apply (I3 s Q t).
      * destruct E as (-> & _). exact F.
    + cbn [st_schemas st_cache set_schemas ca_schemas]. intros s' E' t. rewrite enter1_at in E'.
      assert (Q : ca_schemas (st_cache st) [s'] = None)
        by (destruct (beqb s s'); [destruct e; [discriminate|exact E']|exact E']).
      destruct (I3 s' Q t) as (T & B). split; [exact T|]. eapply blank_same; [|exact B]. repeat split.
  - destruct e as [k|].
    + destruct E as (-> & -> & _ & P). rewrite nth_last in Hsc. injection Hsc as <-. split; [auto|].
      intro f. rewrite (put_none _ _ _ _ _ _ _ x f I1 Logic.I P). clear.
      induction (st_schemas st) as [|y l IH]; cbn; [reflexivity|]. rewrite IH. reflexivity.
    + destruct E as (-> & P). split; [left; eapply nth_error_In; eassumption|].
      intro f. symmetry. exact (put_some _ _ _ _ _ _ _ _ _ x f I1 Logic.I P Hsc).
Qed.

Lemma step_ok : forall strict st s o, st_inv strict st -> careful st s o ->
  (strict = true -> keeps_types st s o) ->
  exists st', step st s o = Ok st' /\ st_inv strict st' /\ st_schemas st' = after (st_schemas st) (s, o).
Proof.
  intros strict st s o I C K. unfold step.
  destruct (get_or_create_schema_ok _ _ s I) as (st1 & i & sc & R & I' & Hsc & Nsc & O & W).
  rewrite R. cbn [bindr]. rewrite Hsc. pose proof I' as (I1 & I2 & I3).
  assert (S : sc_inv strict (st_cache st1) sc).
  { rewrite Forall_forall in I2. apply I2. eapply nth_error_In; eassumption. }
  destruct (run_call_ok strict (st_cache st1) sc o S) as (c' & R2 & S2 & F2).
  - destruct o; cbn in C |- *; auto. destruct C as (C1 & C2 & C3 & C4 & C5).
    do 4 (split; [assumption|]). destruct O as [O|O]; [apply C5; assumption|].
    rewrite O. intros [].
  - intro Z. specialize (K Z). destruct o; cbn in K |- *; auto.
    intros Nx tb y Htb Nt Hy Ny Iy. destruct O as [O|O]; [|rewrite O in Htb; contradiction].
    eapply K; eassumption.
  - rewrite R2. cbn [bindr]. eexists. split; [reflexivity|]. split; [|exact (W (after_schema o))].
    destruct F2 as (Fa & Fb). pose proof (after_schema_name o sc) as N2.
    assert (U : forall j y, nth_error (st_schemas st1) j = Some y -> sc_name y = sc_name sc -> j = i).
    { intros j y Hy Ny. rewrite Forall_forall in I2.
      pose proof (good_found _ _ _ _ _ _ (sc_name sc) I1 Logic.I) as Fo.
      destruct (at_pos sc_ignore (st_schemas st1) (ca_schemas (st_cache st1) [sc_name sc])) as [[k|]| |]; cbn in Fo; try contradiction.
      - destruct Fo as (_ & U). rewrite (U j y), (U i sc); auto.
        + apply (I2 sc). eapply nth_error_In; eassumption.
        + apply (I2 y). eapply nth_error_In; eassumption.
      - pose proof (Fo sc (nth_error_In _ _ Hsc) eq_refl) as Z. destruct S as (S & _). congruence. }
    assert (P : at_pos sc_ignore (st_schemas st1) (ca_schemas (st_cache st1) [sc_name sc]) = Ok (Some i)).
    { pose proof (good_found _ _ _ _ _ _ (sc_name sc) I1 Logic.I) as Fo.
      destruct (at_pos sc_ignore (st_schemas st1) (ca_schemas (st_cache st1) [sc_name sc])) as [[k|]| |]; cbn in Fo; try contradiction.
      - destruct Fo as ((a & Ha & Na & _) & _). rewrite (U _ _ Ha Na). reflexivity.
      - pose proof (Fo sc (nth_error_In _ _ Hsc) eq_refl) as Z. destruct S as (S & _). congruence. }
    split; [|split].
    + cbn [st_schemas st_cache].
      eapply good_ext with (m := fun s => ca_schemas (st_cache st1) [s]); [intro; apply Fa|].
      apply good_set; [exact I1|]. rewrite N2. exact P.
    + cbn [st_schemas st_cache]. apply Forall_forall. intros y Hy.
      destruct (In_nth_error _ _ Hy) as [j Hj]. destruct (Nat.eq_dec j i) as [->|D].
      * rewrite (set_nth_same _ _ _ _ Hsc) in Hj. injection Hj as <-. exact S2.
      * rewrite set_nth_other in Hj by congruence.
        eapply sc_inv_frame with (c := st_cache st1) (s := sc_name sc); [split; assumption| |].
        -- intro Z. apply D. eapply U; eassumption.
        -- rewrite Forall_forall in I2. apply I2. eapply nth_error_In; eassumption.
    + cbn [st_schemas st_cache]. intros s' E t. rewrite Fa in E.
      assert (D : s' <> sc_name sc).
      { intro Z. subst s'. unfold at_pos in P. rewrite E in P. discriminate. }
      destruct (Fb s' D t) as (F1 & F2). destruct (I3 s' E t) as (T & B).
      split; [rewrite F1; exact T|]. eapply blank_same; eassumption.
Qed.

Lemma steps_ok : forall strict l st, st_inv strict st -> all_careful st l ->
  (strict = true -> all_keep_types st l) ->
  exists st', steps st l = Ok st' /\ st_inv strict st' /\ st_schemas st' = fold_left after l (st_schemas st).
Proof.
  intros strict l. induction l as [|[s o] l IH]; intros st I C K; cbn [steps all_careful all_keep_types fold_left] in *.
  - eauto.
  - destruct C as (C1 & C2). destruct (step_ok strict st s o I C1) as (st' & R & I' & W).
    { intro Z. exact (proj1 (K Z)). }
    rewrite R. cbn [bindr]. rewrite <- W. apply IH; [exact I'|exact (C2 _ R)|].
    intro Z. exact (proj2 (K Z) _ R).
Qed.

(** ** What the invariant says *)
Lemma inv_right_lookups : forall strict st, st_inv strict st -> right_lookups st.
Proof.
  intros strict st (I1 & I2 & I3). rewrite Forall_forall in I2. split.
  - intro s. unfold get_schema. apply (good_found _ _ _ _ _ _ s I1 I).
  - intros sc Hsc. destruct (I2 sc Hsc) as (J1 & J2 & J3 & J4). split.
    + intro t. apply (good_found _ _ _ _ _ _ t J2 I).
    + intros tb Htb. rewrite Forall_forall in J3. destruct (J3 tb Htb) as (K1 & K2 & K3 & K4 & K5 & _).
      unfold get_column, get_constraint, get_index. rewrite K1.
      split; [|split].
      * intro n. apply (good_found _ _ _ _ _ _ n K3 I).
      * intros n N. apply (good_found _ _ _ _ _ _ n K4 N).
      * intro n. apply (good_found _ _ _ _ _ _ n K5 I).
Qed.

Lemma collect_snoc : forall l a ps, (forall i, In i ps -> i < List.length l) ->
  collect (l ++ [a]) ps = collect l ps.
Proof.
  intros l a ps. induction ps as [|i ps IH]; intros H; cbn; [reflexivity|].
  rewrite nth_error_app1 by (apply H; left; reflexivity).
  rewrite IH; [reflexivity|]. intros k Hk. apply H. right. exact Hk.
Qed.
Lemma collect_app : forall l ps qs xs ys, collect l ps = Ok xs -> collect l qs = Ok ys -> collect l (ps ++ qs) = Ok (xs ++ ys).
Proof.
  intros l ps. induction ps as [|i ps IH]; intros qs xs ys H1 H2; cbn in *.
  - injection H1 as <-. exact H2.
  - destruct (nth_error l i) as [x|]; [|discriminate].
    destruct (collect l ps) as [zs| |] eqn:E; try discriminate. cbn in H1. injection H1 as <-.
    rewrite (IH qs zs ys eq_refl H2). cbn. destruct (con_ignore x); reflexivity.
Qed.
Lemma fkpos_lt : forall l i, In i (fkpos l) -> i < List.length l.
Proof.
  intros l i H. unfold fkpos in H. apply in_map_iff in H. destruct H as ([k x] & <- & H).
  apply filter_In in H. destruct H as (H & _). unfold indexed in H.
  apply in_combine_l in H. apply in_seq in H. cbn. lia.
Qed.
Lemma collect_fkpos : forall l, collect l (fkpos l)
  = Ok (filter (fun x => beqb (con_type x) FOREIGN_KEY && negb (con_ignore x)) l).
Proof.
  induction l as [|a l IH] using rev_ind; [reflexivity|].
  rewrite fkpos_snoc, filter_app. apply collect_app.
  - rewrite collect_snoc; [exact IH|apply fkpos_lt].
  - cbn [filter]. destruct (beqb (con_type a) FOREIGN_KEY); cbn; [|reflexivity].
    rewrite nth_last. destruct (con_ignore a); reflexivity.
Qed.

Lemma inv_right_keys : forall st, st_inv true st -> right_keys st.
Proof.
  intros st (I1 & I2 & I3) sc tb Hsc Htb. rewrite Forall_forall in I2.
  destruct (I2 sc Hsc) as (J1 & J2 & J3 & J4). rewrite Forall_forall in J3.
  destruct (J3 tb Htb) as (K1 & K2 & K3 & K4 & K5 & L1 & K6). destruct (K6 eq_refl) as (L2 & L3).
  split.
  - intro O. unfold get_primary_key. rewrite K1. unfold at_pos.
    destruct (ca_pkeys (st_cache st) [sc_name sc; tb_name tb]) as [i|].
    + destruct L3 as (a & Ha & Ta). rewrite Ha. destruct (con_ignore a) eqn:Ia; cbn.
      * intros b Hb Tb. destruct (In_nth_error _ _ Hb) as [j Hj].
        pose proof (O _ _ _ _ Ha Hj Ta Tb) as <-. congruence.
      * split; [eauto|]. intros j b Hj Tb _. exact (O _ _ _ _ Hj Ha Tb Ta).
    + cbn. intros b Hb Tb. exfalso. exact (L3 b Hb Tb).
  - unfold get_foreign_keys. rewrite K1, L2. apply collect_fkpos.
Qed.

(** ** The cache of a catalog *)
Lemma fold_good : forall A ok (okb : bytes -> bool) name ign (K : bytes -> key) (l : list A) (m0 : kmap),
  (forall n n', K n = K n' -> n = n') -> (forall n, okb n = true <-> ok n) ->
  (forall n, m0 (K n) = None) -> NoDup (filter okb (map name l)) ->
  good ok name ign l (fun n =>
    fold_left (fun m '(k, a) => if okb (name a) then upd m (K (name a)) (Some k) else m) (indexed l) m0 (K n))
  /\ forall n, okb n = false ->
     fold_left (fun m '(k, a) => if okb (name a) then upd m (K (name a)) (Some k) else m) (indexed l) m0 (K n) = None.
Proof.
  intros A ok okb name ign K l m0 Inj Ok0 M0. induction l as [|a l IH] using rev_ind; intro N.
  - split; [apply good_empty|]; intros; apply M0.
  - rewrite map_app, filter_app in N. cbn [map filter] in N.
    assert (N' : NoDup (filter okb (map name l))).
    { destruct (okb (name a)); [|rewrite app_nil_r in N; exact N]. apply NoDup_remove_1 in N. rewrite app_nil_r in N. exact N. }
    destruct (IH N') as (G & E). rewrite indexed_snoc, fold_left_app. cbn [fold_left].
    change (fun (m : key -> option nat) '(k, a0) => if okb (name a0) then upd m (K (name a0)) (Some k) else m)
      with (fun (m : kmap) '((k, a0) : nat * A) => if okb (name a0) then upd m (K (name a0)) (Some k) else m) in *.
    match goal with |- context [fold_left ?f (indexed l) m0] => set (m := fold_left f (indexed l) m0) in * end.
    destruct (okb (name a)) eqn:O.
    + assert (P : m (K (name a)) = None).
      { destruct (m (K (name a))) as [i|] eqn:Mi; [|reflexivity]. exfalso.
        destruct (proj1 G _ _ Mi) as (b & Hb & Nb & _).
        apply NoDup_remove_2 in N. apply N. rewrite app_nil_r. apply filter_In. split; [|exact O].
        rewrite <- Nb. apply in_map. eapply nth_error_In; eassumption. }
      split.
      * pose proof (good_append _ ok name ign l (fun n => m (K n)) a G) as G2. cbn beta in G2. rewrite P in G2.
        eapply good_ext; [|exact (G2 eq_refl)].
        intro n. unfold upd. destruct (beqb (name a) n) eqn:B.
        -- apply beqb_eq in B. subst n. rewrite keqb_refl. reflexivity.
        -- destruct (keqb (K (name a)) (K n)) eqn:Q; [|reflexivity].
           apply cache_key_eq in Q. apply Inj in Q. subst n. rewrite (proj2 (beqb_eq _ _) eq_refl) in B. discriminate.
      * intros n On. rewrite upd_other; [apply E; exact On|]. intro Q. apply Inj in Q. subst n. congruence.
    + split; [|exact E]. apply good_skip; [exact G|]. intro Z. apply Ok0 in Z. congruence.
Qed.

Lemma fold_away : forall A (okb : bytes -> bool) name (K : bytes -> key) (l : list (nat * A)) (m0 : kmap) k,
  (forall n, K n <> k) ->
  fold_left (fun m '(j, a) => if okb (name a) then upd m (K (name a)) (Some j) else m) l m0 k = m0 k.
Proof.
  intros A okb name K l. induction l as [|[j a] l IH]; intros m0 k D; cbn; [reflexivity|].
  rewrite IH by exact D. destruct (okb (name a)); [|reflexivity]. apply upd_other. apply D.
Qed.

(** A fold over the tables, each of which changes its own keys. *)
Lemma outer_away : forall {V X} (F : (key -> V) -> X -> (key -> V)) (own : X -> key) ps m0 k,
  (forall m p k, firstn 2 k <> own p -> F m p k = m k) ->
  ~ In (firstn 2 k) (map own ps) -> fold_left F ps m0 k = m0 k.
Proof.
  intros V X F own ps. induction ps as [|p ps IH]; intros m0 k H N; cbn in *; [reflexivity|].
  rewrite IH; [|exact H|tauto]. apply H. intro Z. apply N. left. congruence.
Qed.
Lemma outer_at : forall {V X} (F : (key -> V) -> X -> (key -> V)) (own : X -> key) ps m0 p,
  (forall m p k, firstn 2 k <> own p -> F m p k = m k) -> NoDup (map own ps) -> In p ps ->
  exists m, (forall k, firstn 2 k = own p -> m k = m0 k)
    /\ forall k, firstn 2 k = own p -> fold_left F ps m0 k = F m p k.
Proof.
  intros V X F own ps m0 p H N Hp. apply in_split in Hp. destruct Hp as (l1 & l2 & ->).
  rewrite map_app in N. cbn [map] in N. apply NoDup_remove_2 in N.
  exists (fold_left F l1 m0). split.
  - intros k E. apply outer_away with (own := own); [exact H|]. rewrite E. intro Z. apply N. apply in_app_iff. auto.
  - intros k E. rewrite fold_left_app. cbn [fold_left]. apply outer_away with (own := own); [exact H|].
    rewrite E. intro Z. apply N. apply in_app_iff. auto.
Qed.

Definition own (p : schema * (nat * table)) : key := [sc_name (fst p); tb_name (snd (snd p))].

Lemma in_indexed : forall {A} (l : list A) j a, In (j, a) (indexed l) <-> nth_error l j = Some a.
Proof.
  intros A l. induction l as [|x l IH] using rev_ind; intros j a.
  - cbn. split; [contradiction|]. destruct j; discriminate.
  - rewrite indexed_snoc, in_app_iff, IH. cbn. split.
    + intros [H|[H|[]]]; [|injection H as <- <-; apply nth_last].
      rewrite nth_error_app1; [exact H|]. apply nth_error_Some. congruence.
    + intro H. destruct (nth_snoc _ _ _ _ H) as [[_ H1]|[-> ->]]; auto.
Qed.
Lemma map_snd_indexed : forall {A} (l : list A), map snd (indexed l) = l.
Proof.
  intros A l. induction l as [|x l IH] using rev_ind; [reflexivity|].
  rewrite indexed_snoc, map_app, IH. reflexivity.
Qed.
Lemma in_all_tables : forall schemas s j t,
  In (s, (j, t)) (all_tables schemas) <-> In s schemas /\ nth_error (sc_tables s) j = Some t.
Proof.
  intros schemas s j t. unfold all_tables. rewrite in_flat_map. split.
  - intros (s' & Hs & H). apply in_map_iff in H. destruct H as ([j' t'] & E & H). injection E as -> -> ->.
    apply in_indexed in H. auto.
  - intros (Hs & H). exists s. split; [exact Hs|]. apply in_map_iff. exists (j, t). split; [reflexivity|].
    apply in_indexed. exact H.
Qed.

Lemma NoDup_map_inj_on : forall {A B} (f : A -> B) l x y, NoDup (map f l) -> In x l -> In y l -> f x = f y -> x = y.
Proof.
  intros A B f l x y N. induction l as [|a l IH]; cbn in *; [contradiction|].
  inversion N as [|u v H1 H2]; subst. intros [->|Hx] [->|Hy] E; auto.
  - exfalso. apply H1. rewrite E. apply in_map. exact Hy.
  - exfalso. apply H1. rewrite <- E. apply in_map. exact Hx.
Qed.

Lemma NoDup_join : forall {A} (l1 l2 : list A), NoDup l1 -> NoDup l2 -> (forall x, In x l1 -> In x l2 -> False) -> NoDup (l1 ++ l2).
Proof.
  intros A l1 l2 N1 N2 D. induction l1 as [|a l1 IH]; cbn; [exact N2|].
  inversion N1 as [|u v H1 H2]; subst. constructor.
  - rewrite in_app_iff. intros [H|H]; [contradiction|]. apply (D a); [left; reflexivity|exact H].
  - apply IH; [exact H2|]. intros x Hx. apply D. right. exact Hx.
Qed.

Lemma NoDup_own : forall schemas, distinct_names schemas -> NoDup (map own (all_tables schemas)).
Proof.
  intros schemas (N & F). induction schemas as [|s schemas IH]; [constructor|].
  cbn [all_tables flat_map]. cbn [map] in N. inversion N as [|u v H1 H2]; subst. inversion F as [|u v H3 H4]; subst.
  rewrite map_app. apply NoDup_join.
  - rewrite map_map. destruct H3 as (_ & H3 & _).
    change (fun x : nat * table => own (s, x)) with (fun x : nat * table => [sc_name s; tb_name (snd x)]).
    rewrite <- (map_map (@snd nat table) (fun t => [sc_name s; tb_name t])), map_snd_indexed.
    rewrite <- (map_map tb_name (fun n => [sc_name s; n])).
    apply FinFun.Injective_map_NoDup; [|exact H3]. intros a b E. injection E. auto.
  - apply IH; assumption.
  - intros k Hk1 Hk2. apply in_map_iff in Hk1. destruct Hk1 as (p & <- & Hp).
    apply in_map_iff in Hp. destruct Hp as (q & <- & Hq).
    apply in_map_iff in Hk2. destruct Hk2 as ([s' [j t]] & E & H).
    apply in_all_tables in H. unfold own in E. cbn in E. injection E as E _.
    apply H1. rewrite <- E. apply in_map. apply H.
Qed.

Lemma fk_fold : forall l (m : key -> list nat) k,
  fold_left (fun m '(j, c) => if beqb (con_type c) FOREIGN_KEY then upd m k (m k ++ [j]) else m) (indexed l) m k
  = m k ++ fkpos l.
Proof.
  intros l m k. induction l as [|a l IH] using rev_ind; [symmetry; apply app_nil_r|].
  rewrite indexed_snoc, fold_left_app, fkpos_snoc. cbn [fold_left].
  destruct (beqb (con_type a) FOREIGN_KEY).
  - rewrite upd_same, IH, app_assoc. reflexivity.
  - rewrite IH, app_nil_r. reflexivity.
Qed.
Lemma fk_fold_away : forall (l : list (nat * constraint)) (m : key -> list nat) k k', k <> k' ->
  fold_left (fun m '(j, c) => if beqb (con_type c) FOREIGN_KEY then upd m k (m k ++ [j]) else m) l m k' = m k'.
Proof.
  intros l. induction l as [|[j c] l IH]; intros m k k' N; cbn [fold_left]; [reflexivity|].
  rewrite IH by exact N. destruct (beqb (con_type c) FOREIGN_KEY); [apply upd_other; exact N|reflexivity].
Qed.
Lemma pk_fold : forall l (m : kmap) k, m k = None ->
  pk_ok l (fold_left (fun m '(j, c) => if beqb (con_type c) PRIMARY_KEY then upd m k (Some j) else m) (indexed l) m k).
Proof.
  intros l m k E. induction l as [|a l IH] using rev_ind; [cbn; rewrite E; intros a []|].
  rewrite indexed_snoc, fold_left_app. cbn [fold_left].
  pose proof (pk_ok_snoc _ a _ IH) as P.
  destruct (beqb (con_type a) PRIMARY_KEY); [rewrite upd_same|]; exact P.
Qed.
Lemma pk_fold_away : forall (l : list (nat * constraint)) (m : kmap) k k', k <> k' ->
  fold_left (fun m '(j, c) => if beqb (con_type c) PRIMARY_KEY then upd m k (Some j) else m) l m k' = m k'.
Proof.
  intros l. induction l as [|[j c] l IH]; intros m k k' N; cbn [fold_left]; [reflexivity|].
  rewrite IH by exact N. destruct (beqb (con_type c) PRIMARY_KEY); [apply upd_other; exact N|reflexivity].
Qed.

(** The loops of new_cache in the form of [fold_good]. *)
Definition some_name (n : bytes) : bool := negb (beqb n []).
Lemma some_name_spec : forall n, some_name n = true <-> nonempty n.
Proof.
  intro n. unfold some_name, nonempty. rewrite negb_true_iff. split.
  - intros H E. subst n. discriminate.
  - intro H. destruct (beqb n []) eqn:E; [apply beqb_eq in E; contradiction|reflexivity].
Qed.

Lemma con_loop : forall s t (l : list (nat * constraint)) (m : kmap),
  fold_left (fun m '(k, c) => match con_name c with [] => m | _ => upd m [s; t; con_name c] (Some k) end) l m
  = fold_left (fun m '(k, c) => if some_name (con_name c) then upd m [s; t; con_name c] (Some k) else m) l m.
Proof.
  intros s t l. induction l as [|[k c] l IH]; intro m; cbn [fold_left]; [reflexivity|].
  rewrite IH. unfold some_name. destruct (con_name c); reflexivity.
Qed.

Lemma filter_all : forall {A} (l : list A), filter (fun _ => true) l = l.
Proof. induction l as [|a l IH]; cbn; congruence. Qed.

Lemma new_cache_blank : forall schemas s t, ~ In [s; t] (map own (all_tables schemas)) ->
  ca_tables (new_cache schemas) [s; t] = None /\ blank (new_cache schemas) s t.
Proof.
  intros schemas s t N. split; [|split; [|split; [|split; [|split]]]]; intros;
    (cbn [new_cache ca_tables ca_columns ca_constraints ca_indexes ca_pkeys ca_fkeys];
     (etransitivity; [apply outer_away with (own := own); [|exact N]|reflexivity]));
    intros m [s' [j t']] k D; unfold own in D; cbn [fst snd] in *.
  - apply upd_other. intro Z. subst k. apply D. reflexivity.
  - apply (fold_away _ (fun _ => true) col_name (fun n => [sc_name s'; tb_name t'; n])). intros n' Z. subst k. apply D. reflexivity.
  - rewrite con_loop. apply (fold_away _ some_name con_name (fun n => [sc_name s'; tb_name t'; n])). intros n' Z. subst k. apply D. reflexivity.
  - apply (fold_away _ (fun _ => true) ix_name (fun n => [sc_name s'; tb_name t'; n])). intros n' Z. subst k. apply D. reflexivity.
  - apply pk_fold_away. intro Z. subst k. apply D. reflexivity.
  - apply fk_fold_away. intro Z. subst k. apply D. reflexivity.
Qed.

Lemma new_cache_table : forall schemas s j t, distinct_names schemas ->
  In s schemas -> nth_error (sc_tables s) j = Some t ->
  ca_tables (new_cache schemas) [sc_name s; tb_name t] = Some j
  /\ tb_inv true (new_cache schemas) (sc_name s) t.
Proof.
  intros schemas s j t D Hs Hj.
  assert (P : In (s, (j, t)) (all_tables schemas)) by (apply in_all_tables; auto).
  pose proof (NoDup_own _ D) as N.
  assert (T : distinct_table (sc_name s) t).
  { destruct D as (_ & D). rewrite Forall_forall in D. destruct (D s Hs) as (_ & _ & D3).
    rewrite Forall_forall in D3. apply D3. eapply nth_error_In; eassumption. }
  destruct T as (T1 & T2 & T3 & T4 & T5).
  assert (K3 : forall n n' : bytes, [sc_name s; tb_name t; n] = [sc_name s; tb_name t; n'] -> n = n')
    by (intros n n' E; injection E; auto).
  split; [|split; [exact T2|split; [exact T1|split; [|split; [|split; [|split; [|intros _; split]]]]]]].
  - cbn [new_cache ca_tables].
    destruct (outer_at (fun m '(s, (j, t)) => upd m [sc_name s; tb_name t] (Some j)) own _ (fun _ => None) _
      ltac:(intros m [s' [j' t']] k D'; apply upd_other; intro Z; subst k; apply D'; reflexivity) N P) as (m & _ & E).
    etransitivity; [exact (E [sc_name s; tb_name t] eq_refl)|]. apply upd_same.
  - cbn [new_cache ca_columns].
    destruct (outer_at (fun m '(s, (_, t)) =>
         fold_left (fun m '(k, c) => upd m [sc_name s; tb_name t; col_name c] (Some k)) (indexed (tb_columns t)) m) own _ (fun _ => None) _
      ltac:(intros m [s' [j' t']] k D'; apply (fold_away _ (fun _ => true) col_name (fun n => [sc_name s'; tb_name t'; n])); intros n' Z; subst k; apply D'; reflexivity) N P) as (m & M & E).
    eapply good_ext; [intro n; exact (E [sc_name s; tb_name t; n] eq_refl)|].
    refine (proj1 (fold_good _ any (fun _ => true) col_name col_ignore (fun n => [sc_name s; tb_name t; n]) (tb_columns t) m K3 _ _ _)).
    + intro n. unfold any. tauto.
    + intro n. exact (M [sc_name s; tb_name t; n] eq_refl).
    + rewrite filter_all. exact T3.
  - cbn [new_cache ca_constraints].
    destruct (outer_at (fun m '(s, (_, t)) =>
         fold_left (fun m '(k, c) => match con_name c with [] => m | _ => upd m [sc_name s; tb_name t; con_name c] (Some k) end) (indexed (tb_constraints t)) m) own _ (fun _ => None) _
      ltac:(intros m [s' [j' t']] k D'; rewrite con_loop; apply (fold_away _ some_name con_name (fun n => [sc_name s'; tb_name t'; n])); intros n' Z; subst k; apply D'; reflexivity) N P) as (m & M & E).
    eapply good_ext; [intro n; exact (E [sc_name s; tb_name t; n] eq_refl)|]. cbn beta iota. rewrite con_loop.
    refine (proj1 (fold_good _ nonempty some_name con_name con_ignore (fun n => [sc_name s; tb_name t; n]) (tb_constraints t) m K3 some_name_spec _ T4)).
    intro n. exact (M [sc_name s; tb_name t; n] eq_refl).
  - cbn [new_cache ca_indexes].
    destruct (outer_at (fun m '(s, (_, t)) =>
         fold_left (fun m '(k, c) => upd m [sc_name s; tb_name t; ix_name c] (Some k)) (indexed (tb_indexes t)) m) own _ (fun _ => None) _
      ltac:(intros m [s' [j' t']] k D'; apply (fold_away _ (fun _ => true) ix_name (fun n => [sc_name s'; tb_name t'; n])); intros n' Z; subst k; apply D'; reflexivity) N P) as (m & M & E).
    eapply good_ext; [intro n; exact (E [sc_name s; tb_name t; n] eq_refl)|].
    refine (proj1 (fold_good _ any (fun _ => true) ix_name ix_ignore (fun n => [sc_name s; tb_name t; n]) (tb_indexes t) m K3 _ _ _)).
    + intro n. unfold any. tauto.
    + intro n. exact (M [sc_name s; tb_name t; n] eq_refl).
    + rewrite filter_all. exact T5.
  - cbn [new_cache ca_constraints].
    destruct (outer_at (fun m '(s, (_, t)) =>
         fold_left (fun m '(k, c) => match con_name c with [] => m | _ => upd m [sc_name s; tb_name t; con_name c] (Some k) end) (indexed (tb_constraints t)) m) own _ (fun _ => None) _
      ltac:(intros m [s' [j' t']] k D'; rewrite con_loop; apply (fold_away _ some_name con_name (fun n => [sc_name s'; tb_name t'; n])); intros n' Z; subst k; apply D'; reflexivity) N P) as (m & M & E).
    etransitivity; [exact (E [sc_name s; tb_name t; []] eq_refl)|]. cbn beta iota. rewrite con_loop.
    refine (proj2 (fold_good _ nonempty some_name con_name con_ignore (fun n => [sc_name s; tb_name t; n]) (tb_constraints t) m K3 some_name_spec _ T4) [] eq_refl).
    intro n. exact (M [sc_name s; tb_name t; n] eq_refl).
  - cbn [new_cache ca_fkeys].
    destruct (outer_at (fun m '(s, (_, t)) =>
         fold_left (fun m '(k, c) => if beqb (con_type c) FOREIGN_KEY then upd m [sc_name s; tb_name t] (m [sc_name s; tb_name t] ++ [k]) else m) (indexed (tb_constraints t)) m) own _ (fun _ => []) _
      ltac:(intros m [s' [j' t']] k D'; apply fk_fold_away; intro Z; subst k; apply D'; reflexivity) N P) as (m & M & E).
    etransitivity; [exact (E [sc_name s; tb_name t] eq_refl)|].
    etransitivity; [apply fk_fold|]. rewrite (M [sc_name s; tb_name t] eq_refl). reflexivity.
  - cbn [new_cache ca_pkeys].
    destruct (outer_at (fun m '(s, (_, t)) =>
         fold_left (fun m '(k, c) => if beqb (con_type c) PRIMARY_KEY then upd m [sc_name s; tb_name t] (Some k) else m) (indexed (tb_constraints t)) m) own _ (fun _ => None) _
      ltac:(intros m [s' [j' t']] k D'; apply pk_fold_away; intro Z; subst k; apply D'; reflexivity) N P) as (m & M & E).
    eapply eq_ind_r; [|exact (E [sc_name s; tb_name t] eq_refl)]. apply pk_fold. exact (M [sc_name s; tb_name t] eq_refl).
Qed.

Lemma new_state_inv : forall schemas, distinct_names schemas -> st_inv true (new_state schemas).
Proof.
  intros schemas D. pose proof D as (D1 & D2).
  assert (S : good any sc_name sc_ignore schemas (fun s => ca_schemas (new_cache schemas) [s])).
  { cbn [new_cache ca_schemas].
    refine (proj1 (fold_good _ any (fun _ => true) sc_name sc_ignore (fun n => [n]) schemas (fun _ => None) _ _ _ _)).
    - intros n n' E. injection E. auto.
    - intro n. unfold any. tauto.
    - reflexivity.
    - rewrite filter_all. exact D1. }
  split; [exact S|]. split; cbn [new_state st_schemas st_cache].
  - apply Forall_forall. intros sc Hsc. rewrite Forall_forall in D2. destruct (D2 sc Hsc) as (E1 & E2 & E3).
    assert (O : forall t, ca_tables (new_cache schemas) [sc_name sc; t] <> None ->
              exists j tb, nth_error (sc_tables sc) j = Some tb /\ tb_name tb = t).
    { intros t Ht. destruct (in_dec (list_eq_dec (list_eq_dec Ascii.ascii_dec)) [sc_name sc; t] (map own (all_tables schemas))) as [H|H].
      - apply in_map_iff in H. destruct H as ([s' [j tb]] & E & H). apply in_all_tables in H. destruct H as (Hs & Hj).
        unfold own in E. cbn in E. injection E as Es Et.
        assert (s' = sc) by (eapply NoDup_map_inj_on; [exact D1|assumption|assumption|exact Es]). subst s'. eauto.
      - exfalso. apply Ht. apply (new_cache_blank schemas _ _ H). }
    split; [exact E1|]. split; [split|split].
    + intros t i Mi. destruct (O t) as (j & tb & Hj & Nt); [congruence|].
      destruct (new_cache_table schemas sc j tb D Hsc Hj) as (Mj & _). rewrite Nt in Mj.
      assert (j = i) by congruence. subst j. exists tb. split; [exact Hj|]. split; [exact Nt|].
      intros _ j b Hb Nb _. destruct (new_cache_table schemas sc j b D Hsc Hb) as (Mb & _). rewrite Nb in Mb. congruence.
    + intros t _ Mt a Ha Na. destruct (In_nth_error _ _ Ha) as [j Hj].
      destruct (new_cache_table schemas sc j a D Hsc Hj) as (Mj & _). rewrite Na in Mj. congruence.
    + apply Forall_forall. intros tb Htb. destruct (In_nth_error _ _ Htb) as [j Hj].
      apply (new_cache_table schemas sc j tb D Hsc Hj).
    + intros t Mt. apply new_cache_blank. intro H. apply in_map_iff in H. destruct H as ([s' [j tb]] & E & H).
      apply in_all_tables in H. destruct H as (Hs & Hj). unfold own in E. cbn in E. injection E as Es Et.
      destruct (new_cache_table schemas s' j tb D Hs Hj) as (Mj & _). rewrite Es, Et in Mj. congruence.
  - intros s Es t. apply new_cache_blank. intro H. apply in_map_iff in H. destruct H as ([s' [j tb]] & E & H).
    apply in_all_tables in H. destruct H as (Hs & Hj). unfold own in E. cbn in E. injection E as Es' Et.
    exact (proj2 S s I Es s' Hs Es').
Qed.

Lemma inv_weaken : forall st, st_inv true st -> st_inv false st.
Proof.
  intros st (I1 & I2 & I3). split; [exact I1|]. split; [|exact I3].
  eapply Forall_impl; [|exact I2]. intros sc (J1 & J2 & J3 & J4). split; [exact J1|]. split; [exact J2|].
  split; [|exact J4]. eapply Forall_impl; [|exact J3]. intros tb (K1 & K2 & K3 & K4 & K5 & K6).
  do 5 (split; [assumption|]). split; [apply K6|]. discriminate.
Qed.

Theorem cache_lookups : forall schemas l, distinct_names schemas -> all_careful (new_state schemas) l ->
  exists st, steps (new_state schemas) l = Ok st /\ right_lookups st /\ st_schemas st = fold_left after l schemas.
Proof.
  intros schemas l D C.
  destruct (steps_ok false l _ (inv_weaken _ (new_state_inv _ D)) C) as (st & R & I & W); [discriminate|].
  exists st. split; [exact R|]. split; [eapply inv_right_lookups; eassumption|exact W].
Qed.
Theorem cache_keys : forall schemas l, distinct_names schemas -> all_careful (new_state schemas) l ->
  all_keep_types (new_state schemas) l ->
  exists st, steps (new_state schemas) l = Ok st /\ right_keys st.
Proof.
  intros schemas l D C K.
  destruct (steps_ok true l _ (new_state_inv _ D) C (fun _ => K)) as (st & R & I & _).
  exists st. split; [exact R|]. apply inv_right_keys. exact I.
Qed.
