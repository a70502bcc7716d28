(** Facts about the search of the subsetter. *)
From Coq Require Import Permutation.
From Verif Require Import GoStr GoStrFacts ModelSubset SpecSubset.

Lemma tid_eqb_spec a b : reflect (a = b) (tid_eqb a b).
Proof.
  destruct a as [a1 a2], b as [b1 b2]. unfold tid_eqb. cbn [fst snd]. destruct (beqb_spec a1 b1) as [->|N]; cbn [andb]; [|constructor; congruence].
  destruct (beqb_spec a2 b2) as [->|N]; constructor; congruence.
Qed.
Lemma tid_eqb_refl a : tid_eqb a a = true.
Proof. destruct (tid_eqb_spec a a); congruence. Qed.
Lemma existsb_tid i l : existsb (tid_eqb i) l = true <-> In i l.
Proof.
  rewrite existsb_exists. split; [intros (x & I & E); destruct (tid_eqb_spec i x); [subst; exact I|discriminate]|intros I; exists i; split; [exact I|apply tid_eqb_refl]].
Qed.
Lemma seen_in f visited : seen f visited = true <-> In (f_num f) visited.
Proof. unfold seen. rewrite existsb_exists. split; [intros (x & I & E); apply Nat.eqb_eq in E; subst; exact I|intros I; exists (f_num f); split; [exact I|apply Nat.eqb_refl]]. Qed.

(** ** Joins *)
Definition keys (m : joins) : list tid := map fst m.
Lemma get_add k i new m : get_joins k (add_joins i new m) = if tid_eqb k i then get_joins k m ++ new else get_joins k m.
Proof.
  unfold get_joins. induction m as [|[k0 l] m IH]; cbn [add_joins].
  - cbn [find fst]. destruct (tid_eqb_spec i k) as [->|N]; [rewrite tid_eqb_refl; reflexivity|]. destruct (tid_eqb_spec k i); [congruence|reflexivity].
  - destruct (tid_eqb_spec k0 i) as [->|N]; cbn [find fst].
    + destruct (tid_eqb_spec i k) as [->|N']; [rewrite tid_eqb_refl; reflexivity|]. destruct (tid_eqb_spec k i); [congruence|reflexivity].
    + destruct (tid_eqb_spec k0 k) as [->|N']; [|exact IH]. destruct (tid_eqb_spec k i); [contradiction|reflexivity].
Qed.
Lemma keys_add k i new m : In k (keys (add_joins i new m)) <-> k = i \/ In k (keys m).
Proof.
  unfold keys. induction m as [|[k0 l] m IH]; cbn [add_joins map fst In]; [intuition|]. destruct (tid_eqb_spec k0 i) as [->|N]; cbn [map fst In].
  - intuition.
  - rewrite IH. intuition.
Qed.
Lemma keys_nodup i new m : NoDup (keys m) -> NoDup (keys (add_joins i new m)).
Proof.
  induction m as [|[k0 l] m IH]; intros N; cbn [add_joins]; [repeat constructor; intros []|]. inversion N as [|? ? N1 N2]; subst.
  destruct (tid_eqb_spec k0 i) as [->|Ne]; [exact N|]. cbn [keys map fst]. constructor; [|apply IH; exact N2].
  intros H. apply (keys_add k0 i new m) in H as [H|H]; [congruence|contradiction].
Qed.
Lemma get_not_key i m : ~ In i (keys m) -> get_joins i m = [].
Proof.
  intros H. unfold get_joins. destruct (find _ m) as [[k l]|] eqn:E; [|reflexivity]. apply find_some in E as [I E]. cbn [fst] in E.
  destruct (tid_eqb_spec k i); [|discriminate E]. subst. destruct H. apply in_map_iff. exists (i, l). auto.
Qed.
Lemma get_in i l m : NoDup (keys m) -> In (i, l) m -> get_joins i m = l.
Proof.
  unfold get_joins. induction m as [|[k0 l0] m IH]; intros N; [intros []|]. inversion N as [|? ? N1 N2]; subst. intros [E|I].
  - injection E as -> ->. cbn [find fst]. rewrite tid_eqb_refl. reflexivity.
  - cbn [find fst]. destruct (tid_eqb_spec k0 i) as [->|Ne]; [|apply IH; assumption]. destruct N1. apply in_map_iff. exists (i, l). auto.
Qed.
Lemma in_extend j i f base : In j (extend i f base) <-> exists j0, In j0 base /\ ~ In i (j_tables j0) /\ j = Path (j_tables j0 ++ [i]) (j_fkeys j0 ++ [f]).
Proof.
  unfold extend. rewrite in_map_iff. split.
  - intros (j0 & <- & I). apply filter_In in I as [I E]. exists j0. split; [exact I|]. split; [|reflexivity]. intros X. apply existsb_tid in X. rewrite X in E. discriminate E.
  - intros (j0 & I & N & ->). exists j0. split; [reflexivity|]. apply filter_In. split; [exact I|]. destruct (existsb (tid_eqb i) (j_tables j0)) eqn:E; [apply existsb_tid in E; contradiction|reflexivity].
Qed.

(** ** Paths *)
(** [f] connects [a] and [b]. *)
Definition link (f : fkey) (a b : tid) : Prop := (f_from f = a /\ f_to f = b) \/ (f_to f = a /\ f_from f = b).
Section Search.
Context (cat : catalog) (n : nat) (t0 : table) (pk : list bytes) (CO : catalog_ok cat) (T0 : In t0 (c_tables cat)).
Definition base_fkey := Fkey 0 (result_name n) pk (t_id t0) pk.
(** A path from the base table to [last]. *)
Inductive vpath : list tid -> list fkey -> tid -> Prop :=
| vp_base : vpath [t_id t0] [base_fkey] (t_id t0)
| vp_snoc ts fs a f b : vpath ts fs a -> link f a b -> In f (all_fks cat) -> ~ In b ts -> vpath (ts ++ [b]) (fs ++ [f]) b.
Lemma vpath_last ts fs a : vpath ts fs a -> In a ts.
Proof. intros H. destruct H; [left; reflexivity|apply in_or_app; right; left; reflexivity]. Qed.
Lemma vpath_nodup ts fs a : vpath ts fs a -> NoDup ts.
Proof.
  induction 1 as [|ts fs a f b H IH L I N]; [repeat constructor; intros []|].
  apply (Permutation_NoDup (l := b :: ts)); [apply Permutation_cons_append|constructor; assumption].
Qed.
Lemma from_in_tables f : In f (all_fks cat) -> exists t, In t (c_tables cat) /\ t_id t = f_from f /\ In f (t_fks t).
Proof. intros I. apply in_flat_map in I as (t & It & If). exists t. split; [exact It|]. split; [symmetry; apply (co_from _ CO _ _ It If)|exact If]. Qed.
Lemma find_table_in t : In t (c_tables cat) -> find_table cat (t_id t) = Some t.
Proof.
  unfold find_table. pose proof (co_tables _ CO) as N. clear T0. induction (c_tables cat) as [|x l IH]; [intros []|]. cbn [map] in N. inversion N as [|? ? N1 N2]; subst.
  cbn [find]. intros [->|I]; [rewrite tid_eqb_refl; reflexivity|]. destruct (tid_eqb_spec (t_id x) (t_id t)) as [E|E]; [|apply IH; assumption].
  destruct N1. rewrite E. apply in_map. exact I.
Qed.
Lemma find_table_some i t : find_table cat i = Some t -> In t (c_tables cat) /\ t_id t = i.
Proof. intros H. apply find_some in H as [I E]. destruct (tid_eqb_spec (t_id t) i); [auto|discriminate]. Qed.
Lemma fks_of_in i f : In f (fks_of cat i) <-> In f (all_fks cat) /\ f_from f = i.
Proof.
  unfold fks_of. split.
  - destruct (find_table cat i) as [t|] eqn:E; [|intros []]. apply find_table_some in E as [I <-]. intros If. split; [apply in_flat_map; eauto|apply (co_from _ CO _ _ I If)].
  - intros [I <-]. destruct (from_in_tables f I) as (t & It & <- & If). rewrite find_table_in by exact It. exact If.
Qed.

(** What holds of the joins throughout. *)
Record good (m : joins) : Prop := {
  g_nodup : NoDup (keys m);
  g_paths : forall i j, In j (get_joins i m) -> vpath (j_tables j) (j_fkeys j) i;
  g_nonempty : forall i, In i (keys m) -> get_joins i m <> [];
  g_keys : forall i j k, In j (get_joins i m) -> In k (j_tables j) -> In k (keys m) }.
Lemma good_base : good [(t_id t0, [base_path n t0 pk])].
Proof.
  assert (E : forall i j, In j (get_joins i [(t_id t0, [base_path n t0 pk])]) -> i = t_id t0 /\ j = base_path n t0 pk).
  { intros i j. unfold get_joins. cbn [find fst]. destruct (tid_eqb_spec (t_id t0) i) as [<-|N]; [|intros []]. intros [<-|[]]. auto. }
  constructor.
  - repeat constructor. intros [].
  - intros i j I. apply E in I as [-> ->]. constructor.
  - intros i [<-|[]]. unfold get_joins. cbn [find fst]. rewrite tid_eqb_refl. discriminate.
  - intros i j k I Ik. apply E in I as [-> ->]. exact Ik.
Qed.
Lemma good_step m f a b : good m -> In a (keys m) -> link f a b -> In f (all_fks cat) -> good (add_joins b (extend b f (get_joins a m)) m).
Proof.
  intros G Ia L If. constructor.
  - apply keys_nodup, (g_nodup _ G).
  - intros i j I. rewrite get_add in I. destruct (tid_eqb_spec i b) as [->|N]; [|apply (g_paths _ G); exact I]. apply in_app_iff in I as [I|I]; [apply (g_paths _ G); exact I|].
    apply in_extend in I as (j0 & I0 & N0 & ->). cbn [j_tables j_fkeys]. apply vp_snoc with (a := a); auto. apply (g_paths _ G); exact I0.
  - intros i I. rewrite get_add. apply keys_add in I. destruct (tid_eqb_spec i b) as [->|N].
    + intros E. apply app_eq_nil in E as [E1 E2]. pose proof (g_nonempty _ G a Ia) as Ne. destruct (get_joins a m) as [|j0 js] eqn:Ea; [contradiction|].
      destruct (in_dec (fun x y => match tid_eqb_spec x y with ReflectT _ e => left e | ReflectF _ ne => right ne end) b (j_tables j0)) as [Ib|Nb].
      * apply (g_nonempty _ G b); [|exact E1]. apply (g_keys _ G a j0 b); [rewrite Ea; left; reflexivity|exact Ib].
      * assert (X : In (Path (j_tables j0 ++ [b]) (j_fkeys j0 ++ [f])) (extend b f (j0 :: js))) by (apply in_extend; exists j0; split; [left; reflexivity|auto]).
        rewrite E2 in X. exact X.
    + destruct I as [I|I]; [contradiction|]. apply (g_nonempty _ G). exact I.
  - intros i j k I Ik. apply keys_add. rewrite get_add in I. destruct (tid_eqb_spec i b) as [->|N]; [|right; apply (g_keys _ G i j); assumption].
    apply in_app_iff in I as [I|I]; [right; apply (g_keys _ G b j); assumption|]. apply in_extend in I as (j0 & I0 & N0 & ->). cbn [j_tables] in Ik.
    apply in_app_iff in Ik as [Ik|[<-|[]]]; [right; apply (g_keys _ G a j0); assumption|left; reflexivity].
Qed.

(** ** The loops *)
Definition weight1 (f : fkey) : nat := S (List.length (fks_of cat (f_to f)) + List.length (referenced_by cat (f_from f))).
Definition weight (visited : list nat) (l : list fkey) : nat := fold_right (fun f k => (if seen f visited then 0 else weight1 f) + k) 0 l.
Lemma weight_le x visited l : weight (x :: visited) l <= weight visited l.
Proof.
  induction l as [|f l IH]; cbn [weight fold_right]; [lia|]. fold (weight (x :: visited) l). fold (weight visited l). unfold seen at 1. cbn [existsb].
  fold (seen f visited). destruct (f_num f =? x), (seen f visited); cbn [orb]; lia.
Qed.
Lemma weight_visit f visited l : In f l -> seen f visited = false -> weight (f_num f :: visited) l + weight1 f <= weight visited l.
Proof.
  intros I N. induction l as [|g l IH]; [destruct I|]. cbn [weight fold_right]. fold (weight (f_num f :: visited) l). fold (weight visited l). destruct I as [->|I].
  - rewrite N. unfold seen at 1. cbn [existsb]. rewrite Nat.eqb_refl. cbn [orb]. pose proof (weight_le (f_num f) visited l). lia.
  - specialize (IH I). unfold seen at 1. cbn [existsb]. fold (seen g visited). destruct (f_num g =? f_num f), (seen g visited); cbn [orb]; lia.
Qed.
Lemma weight_nil l : weight [] l = fold_right (fun f k => weight1 f + k) 0 l.
Proof. induction l as [|f l IH]; [reflexivity|]. cbn [weight fold_right]. fold (weight [] l). rewrite IH. reflexivity. Qed.

(** An invariant of the loops: [P visited todo m]. *)
Lemma forward_ind (P : list nat -> list fkey -> joins -> Prop) :
  (forall f todo visited m, P visited (f :: todo) m -> seen f visited = true -> P visited todo m) ->
  (forall f todo visited m t, P visited (f :: todo) m -> seen f visited = false -> find_table cat (f_to f) = Some t ->
     P (f_num f :: visited) (rev (t_fks t) ++ todo) (add_joins (f_to f) (extend (f_to f) f (get_joins (f_from f) m)) m)) ->
  forall fuel todo visited m v' m', P visited todo m -> forward fuel cat todo visited m = Found (v', m') -> P v' [] m'.
Proof.
  intros H1 H2. induction fuel as [|fuel IH]; intros todo visited m v' m' HP.
  - destruct todo; cbn [forward]; [intros [= <- <-]; exact HP|discriminate].
  - destruct todo as [|f todo]; cbn [forward]; [intros [= <- <-]; exact HP|]. destruct (seen f visited) eqn:Es; [apply IH; eapply H1; eassumption|].
    destruct (find_table cat (f_to f)) as [t|] eqn:Et; [|discriminate]. apply IH. apply H2; assumption.
Qed.
Lemma backward_ind (P : list nat -> list fkey -> joins -> Prop) :
  (forall f todo visited m, P visited (f :: todo) m -> seen f visited = true -> P visited todo m) ->
  (forall f todo visited m, P visited (f :: todo) m -> seen f visited = false ->
     P (f_num f :: visited) (rev (referenced_by cat (f_from f)) ++ todo) (add_joins (f_from f) (extend (f_from f) f (get_joins (f_to f) m)) m)) ->
  forall fuel todo visited m v' m', P visited todo m -> backward fuel cat todo visited m = Found (v', m') -> P v' [] m'.
Proof.
  intros H1 H2. induction fuel as [|fuel IH]; intros todo visited m v' m' HP.
  - destruct todo; cbn [backward]; [intros [= <- <-]; exact HP|discriminate].
  - destruct todo as [|f todo]; cbn [backward]; [intros [= <- <-]; exact HP|]. destruct (seen f visited) eqn:Es; [apply IH; eapply H1; eassumption|]. apply IH. apply H2; assumption.
Qed.
Lemma forward_found : closed cat -> forall fuel todo visited m, incl todo (all_fks cat) -> List.length todo + weight visited (all_fks cat) <= fuel ->
  exists r, forward fuel cat todo visited m = Found r.
Proof.
  intros Cl. induction fuel as [|fuel IH]; intros todo visited m Hi Hl.
  - destruct todo; cbn [forward]; [eauto|cbn [List.length] in Hl; lia].
  - destruct todo as [|f todo]; cbn [forward]; [eauto|]. cbn [List.length] in Hl. destruct (seen f visited) eqn:Es.
    + apply IH; [intros x Ix; apply Hi; right; exact Ix|lia].
    + assert (If : In f (all_fks cat)) by (apply Hi; left; reflexivity). destruct (Cl f If) as (t & It & Et). rewrite <- Et, find_table_in by exact It.
      pose proof (weight_visit f visited _ If Es) as W. unfold weight1, fks_of in W. rewrite <- Et, find_table_in in W by exact It. apply IH.
      * intros x Ix. apply in_app_iff in Ix as [Ix|Ix]; [apply in_flat_map; exists t; split; [exact It|apply in_rev; exact Ix]|apply Hi; right; exact Ix].
      * rewrite app_length, rev_length. lia.
Qed.
Lemma backward_found : forall fuel todo visited m, incl todo (all_fks cat) -> List.length todo + weight visited (all_fks cat) <= fuel ->
  exists r, backward fuel cat todo visited m = Found r.
Proof.
  induction fuel as [|fuel IH]; intros todo visited m Hi Hl.
  - destruct todo; cbn [backward]; [eauto|cbn [List.length] in Hl; lia].
  - destruct todo as [|f todo]; cbn [backward]; [eauto|]. cbn [List.length] in Hl. destruct (seen f visited) eqn:Es.
    + apply IH; [intros x Ix; apply Hi; right; exact Ix|lia].
    + assert (If : In f (all_fks cat)) by (apply Hi; left; reflexivity).
      pose proof (weight_visit f visited _ If Es) as W. unfold weight1 in W. apply IH.
      * intros x Ix. apply in_app_iff in Ix as [Ix|Ix]; [apply in_rev in Ix; apply filter_In in Ix; tauto|apply Hi; right; exact Ix].
      * rewrite app_length, rev_length. lia.
Qed.
Lemma fuel_enough todo visited : List.length todo + weight visited (all_fks cat) <= fuel_for cat todo.
Proof.
  unfold fuel_for. assert (W : weight visited (all_fks cat) <= weight [] (all_fks cat)).
  { induction visited as [|x v IH]; [lia|]. pose proof (weight_le x v (all_fks cat)). lia. }
  rewrite weight_nil in W. unfold weight1 in W. lia.
Qed.
Lemma fks_of_incl i : incl (rev (fks_of cat i)) (all_fks cat).
Proof. intros f I. apply in_rev in I. apply fks_of_in in I. tauto. Qed.
Lemma insert_tid_in x i l : In x (insert_tid i l) <-> x = i \/ In x l.
Proof. induction l as [|k l IH]; cbn [insert_tid]; [cbn; intuition|]. destruct (_ || _); cbn [In]; [intuition|]. rewrite IH. intuition. Qed.
Lemma sort_tids_in x l : In x (sort_tids l) <-> In x l.
Proof. induction l as [|k l IH]; [reflexivity|]. cbn [sort_tids fold_right]. fold (sort_tids l). rewrite insert_tid_in, IH. cbn. intuition. Qed.
Lemma t_fks_fks_of : t_fks t0 = fks_of cat (t_id t0).
Proof. unfold fks_of. rewrite find_table_in by exact T0. reflexivity. Qed.
(** The search ends with joins for every catalog that contains the tables referred to. *)
Lemma subset_found ext : closed cat -> exists m, subset_joins cat ext n t0 pk = Found m.
Proof.
  intros Cl. unfold subset_joins. destruct ext.
  - assert (Hi : incl (rev (referenced_by cat (t_id t0))) (all_fks cat)) by (intros f I; apply in_rev, filter_In in I; tauto).
    destruct (backward_found _ _ [] [(t_id t0, [base_path n t0 pk])] Hi (fuel_enough _ [])) as ((v & m) & ->).
    assert (Hj : incl (rev (flat_map (fks_of cat) (sort_tids (map fst m)))) (all_fks cat)).
    { intros f I. apply in_rev, in_flat_map in I as (i & _ & I). apply fks_of_in in I. tauto. }
    destruct (forward_found Cl _ _ v m Hj (fuel_enough _ v)) as ((v' & m') & ->). eauto.
  - rewrite t_fks_fks_of. destruct (forward_found Cl _ _ [] [(t_id t0, [base_path n t0 pk])] (fks_of_incl (t_id t0)) (fuel_enough _ [])) as ((v' & m') & ->). eauto.
Qed.

(** It ends in any case. *)
Lemma forward_ends : forall fuel todo visited m, incl todo (all_fks cat) -> List.length todo + weight visited (all_fks cat) <= fuel -> forward fuel cat todo visited m <> Fuel.
Proof.
  induction fuel as [|fuel IH]; intros todo visited m Hi Hl.
  - destruct todo; cbn [forward]; [discriminate|cbn [List.length] in Hl; lia].
  - destruct todo as [|f todo]; cbn [forward]; [discriminate|]. cbn [List.length] in Hl. destruct (seen f visited) eqn:Es.
    + apply IH; [intros x Ix; apply Hi; right; exact Ix|lia].
    + assert (If : In f (all_fks cat)) by (apply Hi; left; reflexivity). destruct (find_table cat (f_to f)) as [t|] eqn:Et; [|discriminate].
      pose proof (weight_visit f visited _ If Es) as W. unfold weight1, fks_of in W. rewrite Et in W. apply find_table_some in Et as [It _]. apply IH.
      * intros x Ix. apply in_app_iff in Ix as [Ix|Ix]; [apply in_flat_map; exists t; split; [exact It|apply in_rev; exact Ix]|apply Hi; right; exact Ix].
      * rewrite app_length, rev_length. lia.
Qed.
Lemma subset_ends ext : subset_joins cat ext n t0 pk <> Fuel.
Proof.
  unfold subset_joins. destruct ext.
  - assert (Hi : incl (rev (referenced_by cat (t_id t0))) (all_fks cat)) by (intros f I; apply in_rev, filter_In in I; tauto).
    destruct (backward_found _ _ [] [(t_id t0, [base_path n t0 pk])] Hi (fuel_enough _ [])) as ((v & m) & ->).
    assert (Hj : incl (rev (flat_map (fks_of cat) (sort_tids (map fst m)))) (all_fks cat)).
    { intros f I. apply in_rev, in_flat_map in I as (i & _ & I). apply fks_of_in in I. tauto. }
    pose proof (forward_ends _ _ v m Hj (fuel_enough _ v)) as E. destruct (forward _ _ _ _ _) as [[v' m']| |]; [discriminate|discriminate|contradiction].
  - rewrite t_fks_fks_of. pose proof (forward_ends _ _ [] [(t_id t0, [base_path n t0 pk])] (fks_of_incl (t_id t0)) (fuel_enough _ [])) as E. destruct (forward _ _ _ _ _) as [[v' m']| |]; [discriminate|discriminate|contradiction].
Qed.

(** The joins found are good, whether the catalog is closed or not. *)
Lemma forward_good fuel todo visited m v' m' : good m -> NoDup visited -> (forall f, In f todo -> In f (all_fks cat) /\ In (f_from f) (keys m)) ->
  forward fuel cat todo visited m = Found (v', m') -> good m' /\ NoDup v' /\ incl (keys m) (keys m').
Proof.
  intros G N Hi. intros E.
  pose (P := fun (v : list nat) (td : list fkey) (x : joins) => good x /\ NoDup v /\ incl (keys m) (keys x) /\ forall f, In f td -> In f (all_fks cat) /\ In (f_from f) (keys x)).
  assert (X : P v' [] m').
  { apply (forward_ind P) with (fuel := fuel) (todo := todo) (visited := visited) (m := m); [| |split; [exact G|split; [exact N|split; [apply incl_refl|exact Hi]]]|exact E].
    - intros f td v x (H1 & H2 & H3 & H4) _. split; [exact H1|split; [exact H2|split; [exact H3|]]]. intros g Ig. apply H4. right. exact Ig.
    - intros f td v x t (H1 & H2 & H3 & H4) Es Et. destruct (H4 f (or_introl eq_refl)) as [If Ik]. apply find_table_some in Et as [It Et]. split; [|split; [|split]].
      + apply good_step; try assumption. left. auto.
      + constructor; [|exact H2]. intros I. apply seen_in in I. congruence.
      + intros k Ik'. apply keys_add. right. apply H3. exact Ik'.
      + intros g Ig. apply in_app_iff in Ig as [Ig|Ig].
        * apply in_rev in Ig. split; [apply in_flat_map; eauto|]. apply keys_add. left. rewrite <- Et. apply (co_from _ CO _ _ It Ig).
        * destruct (H4 g (or_intror Ig)) as [A C]. split; [exact A|]. apply keys_add. right. exact C. }
  destruct X as (X1 & X2 & X3 & _). auto.
Qed.
Lemma backward_good fuel todo visited m v' m' : good m -> NoDup visited -> (forall f, In f todo -> In f (all_fks cat) /\ In (f_to f) (keys m)) ->
  backward fuel cat todo visited m = Found (v', m') -> good m' /\ NoDup v' /\ incl (keys m) (keys m').
Proof.
  intros G N Hi. intros E.
  pose (P := fun (v : list nat) (td : list fkey) (x : joins) => good x /\ NoDup v /\ incl (keys m) (keys x) /\ forall f, In f td -> In f (all_fks cat) /\ In (f_to f) (keys x)).
  assert (X : P v' [] m').
  { apply (backward_ind P) with (fuel := fuel) (todo := todo) (visited := visited) (m := m); [| |split; [exact G|split; [exact N|split; [apply incl_refl|exact Hi]]]|exact E].
    - intros f td v x (H1 & H2 & H3 & H4) _. split; [exact H1|split; [exact H2|split; [exact H3|]]]. intros g Ig. apply H4. right. exact Ig.
    - intros f td v x (H1 & H2 & H3 & H4) Es. destruct (H4 f (or_introl eq_refl)) as [If Ik]. split; [|split; [|split]].
      + apply good_step; try assumption. right. auto.
      + constructor; [|exact H2]. intros I. apply seen_in in I. congruence.
      + intros k Ik'. apply keys_add. right. apply H3. exact Ik'.
      + intros g Ig. apply in_app_iff in Ig as [Ig|Ig].
        * apply in_rev in Ig. apply filter_In in Ig as [A C]. destruct (tid_eqb_spec (f_to g) (f_from f)) as [Eg|]; [|discriminate C]. split; [exact A|]. apply keys_add. left. exact Eg.
        * destruct (H4 g (or_intror Ig)) as [A C]. split; [exact A|]. apply keys_add. right. exact C. }
  destruct X as (X1 & X2 & X3 & _). auto.
Qed.
Lemma subset_good ext m : subset_joins cat ext n t0 pk = Found m -> good m /\ In (t_id t0) (keys m).
Proof.
  unfold subset_joins. destruct ext.
  - destruct (backward _ _ _ _ _) as [[v m1]| |] eqn:Eb; try discriminate. apply backward_good in Eb as (G & N & I1); [| |constructor|].
    + destruct (forward _ _ _ _ _) as [[v2 m2]| |] eqn:Ef; try discriminate. intros [= <-]. apply forward_good in Ef as (G2 & _ & I2); [|exact G|exact N|].
      * split; [exact G2|]. apply I2, I1. left. reflexivity.
      * intros f I. apply in_rev, in_flat_map in I as (i & Ii & I). apply (proj1 (sort_tids_in _ _)) in Ii. apply fks_of_in in I as [A <-]. split; [exact A|exact Ii].
    + exact good_base.
    + intros f I. apply in_rev, filter_In in I as [A E]. destruct (tid_eqb_spec (f_to f) (t_id t0)) as [Ef|]; [|discriminate E]. split; [exact A|]. left. symmetry. exact Ef.
  - destruct (forward _ _ _ _ _) as [[v2 m2]| |] eqn:Ef; try discriminate. intros [= <-]. apply forward_good in Ef as (G2 & _ & I2); [|exact good_base|constructor|].
    + split; [exact G2|]. apply I2. left. reflexivity.
    + intros f I. apply in_rev in I. rewrite t_fks_fks_of in I. apply fks_of_in in I as [A Ef']. split; [exact A|]. left. symmetry. exact Ef'.
Qed.

(** ** Joins as SQL *)
Lemma pair_columns_ok t1 c1 t2 c2 : List.length c1 = List.length c2 -> exists on, pair_columns t1 c1 t2 c2 = Some on
  /\ forall x y, In (x, y) on <-> exists a b, In (a, b) (combine c1 c2) /\ x = (t2, b) /\ y = (t1, a).
Proof.
  revert c2. induction c1 as [|a c1 IH]; intros [|b c2] L; try discriminate L.
  - exists []. split; [reflexivity|]. cbn [combine In]. intros x y. split; [intros []|intros (a & b & [] & _)].
  - injection L as L. destruct (IH c2 L) as (on & E & H). cbn [pair_columns]. rewrite E. exists (((t2, b), (t1, a)) :: on). split; [reflexivity|]. intros x y. cbn [combine In]. rewrite H. split.
    + intros [Q|(a' & b' & I & Q)]; [injection Q as <- <-; exists a, b; auto|exists a', b'; auto].
    + intros (a' & b' & [Q|I] & Hx & Hy); [injection Q as <- <-; left; rewrite Hx, Hy; reflexivity|right; exists a', b'; auto].
Qed.
Lemma vpath_in_catalog ts fs a : closed cat -> vpath ts fs a -> forall i, In i ts -> exists t, In t (c_tables cat) /\ t_id t = i.
Proof.
  intros Cl. induction 1 as [|ts fs a f b H IH L I N]; intros i Ii.
  - destruct Ii as [<-|[]]. eauto.
  - apply in_app_iff in Ii as [Ii|[<-|[]]]; [apply IH; exact Ii|]. destruct L as [[_ <-]|[_ <-]]; [destruct (Cl f I) as (t & A & C); eauto|]. destruct (from_in_tables f I) as (t & A & C & _). eauto.
Qed.
(** The conditions of a path. *)
Definition holds {V} (D : db V) (e : env) (ts : list tid) (fs : list fkey) : Prop :=
  (forall i, In i ts -> D i (e i)) /\ forall f, In f fs -> refers f (e (f_from f)) (e (f_to f)).
Lemma equal_sym {V} (a b : option V) : equal a b -> equal b a.
Proof. intros (v & A & C). exists v. auto. Qed.
Lemma combine_swap {A C} (a : list A) (b : list C) x y : In (x, y) (combine a b) <-> In (y, x) (combine b a).
Proof. revert b. induction a as [|p a IH]; intros [|q b]; cbn [combine In]; try tauto. rewrite IH. split; (intros [E|H]; [left; congruence|right; exact H]). Qed.
Definition conditions {V} (e : @env V) (on : list (colref * colref)) : Prop := forall x y, In (x, y) on -> equal (value_of e x) (value_of e y).
Lemma pair_forward {V} f on (e : @env V) : pair_columns (f_from f) (f_cols f) (f_to f) (f_rcols f) = Some on ->
  (forall x y, In (x, y) on <-> exists a b, In (a, b) (combine (f_cols f) (f_rcols f)) /\ x = (f_to f, b) /\ y = (f_from f, a)) ->
  conditions e on <-> refers f (e (f_from f)) (e (f_to f)).
Proof.
  intros _ H. split.
  - intros C c c' I. apply equal_sym. apply (C (f_to f, c') (f_from f, c)). apply H. exists c, c'. auto.
  - intros R x y I. apply H in I as (a & b & I & -> & ->). apply equal_sym. exact (R a b I).
Qed.
Lemma pair_backward {V} f on (e : @env V) : pair_columns (f_to f) (f_rcols f) (f_from f) (f_cols f) = Some on ->
  (forall x y, In (x, y) on <-> exists a b, In (a, b) (combine (f_rcols f) (f_cols f)) /\ x = (f_from f, b) /\ y = (f_to f, a)) ->
  conditions e on <-> refers f (e (f_from f)) (e (f_to f)).
Proof.
  intros _ H. split.
  - intros C c c' I. apply (C (f_from f, c) (f_to f, c')). apply H. exists c', c. apply combine_swap in I. auto.
  - intros R x y I. apply H in I as (a & b & I & -> & ->). apply combine_swap in I. exact (R b a I).
Qed.
Lemma rest_ok ts fs a : vpath ts fs a -> (forall i, In i ts -> i <> result_name n) -> exists l, sql_rest a (rev fs) = Some l
  /\ a :: map fst l = rev ts ++ [result_name n]
  /\ (forall known, In a known -> (forall i, In i known -> ~ In i (map fst l)) -> scoped known l)
  /\ (forall V (D : db V) e, (forall t on, In (t, on) l -> D t (e t) /\ conditions e on)
       <-> ((forall i, In i (map fst l) -> D i (e i)) /\ forall f, In f fs -> refers f (e (f_from f)) (e (f_to f)))).
Proof.
  induction 1 as [|ts fs a f b H IH L I N]; intros Hr.
  - cbn [rev app sql_rest base_fkey f_from f_to f_cols f_rcols]. destruct (tid_eqb_spec (t_id t0) (result_name n)) as [E|_]; [destruct (Hr _ (or_introl eq_refl) E)|].
    rewrite tid_eqb_refl. destruct (pair_columns_ok (t_id t0) pk (result_name n) pk eq_refl) as (on & E & Hon). rewrite E. exists [(result_name n, on)].
    split; [reflexivity|]. split; [reflexivity|]. split.
    + intros known Ik Dj. cbn [scoped map fst]. split; [intros X; exact (Dj _ X (or_introl eq_refl))|]. split; [|exact Logic.I]. intros x y Ixy. apply Hon in Ixy as (p & q & _ & -> & ->).
      cbn [fst]. split; [left; reflexivity|right; exact Ik].
    + intros V D e. pose proof (pair_backward base_fkey on e E Hon) as P. cbn [f_from f_to base_fkey] in P. cbn [map fst In]. split.
      * intros A. destruct (A _ _ (or_introl eq_refl)) as [A1 A2]. split; [intros i [<-|[]]; exact A1|]. intros f [<-|[]]. cbn [f_from f_to]. apply P. exact A2.
      * intros [A1 A2] t on' [Q|[]]. injection Q as <- <-. split; [apply A1; auto|]. apply P. exact (A2 _ (or_introl eq_refl)).
  - destruct IH as (l & El & Em & Sc & Se); [intros i Ii; apply Hr, in_or_app; left; exact Ii|].
    assert (Nab : a <> b) by (intros ->; apply N; exact (vpath_last _ _ _ H)).
    assert (Lc : List.length (f_cols f) = List.length (f_rcols f)) by (apply (co_columns _ CO); exact I).
    assert (X : exists on, sql_rest b (rev (fs ++ [f])) = Some ((a, on) :: l) /\ (forall x y, In (x, y) on -> fst x = a /\ fst y = b)
              /\ forall V (e : @env V), conditions e on <-> refers f (e (f_from f)) (e (f_to f))).
    { rewrite rev_app_distr. cbn [rev app sql_rest]. destruct L as [[<- <-]|[<- <-]].
      - destruct (tid_eqb_spec (f_to f) (f_from f)) as [E|_]; [congruence|]. rewrite tid_eqb_refl.
        destruct (pair_columns_ok (f_to f) (f_rcols f) (f_from f) (f_cols f) (eq_sym Lc)) as (on & E & Hon). rewrite E, El. exists on. split; [reflexivity|]. split.
        + intros x y Ixy. apply Hon in Ixy as (p & q & _ & -> & ->). auto.
        + intros V e. apply pair_backward; assumption.
      - rewrite tid_eqb_refl. destruct (pair_columns_ok (f_from f) (f_cols f) (f_to f) (f_rcols f) Lc) as (on & E & Hon). rewrite E, El. exists on. split; [reflexivity|]. split.
        + intros x y Ixy. apply Hon in Ixy as (p & q & _ & -> & ->). auto.
        + intros V e. apply pair_forward; assumption. }
    destruct X as (on & Eo & Hon & Hc). exists ((a, on) :: l). split; [exact Eo|]. split; [|split].
    + cbn [map fst]. rewrite rev_app_distr. cbn [rev app]. rewrite Em. reflexivity.
    + intros known Ik Dj. cbn [scoped]. cbn [map fst] in Dj. split; [intros Y; exact (Dj _ Y (or_introl eq_refl))|]. split.
      * intros x y Ixy. destruct (Hon x y Ixy) as [-> ->]. split; [left; reflexivity|right; exact Ik].
      * apply Sc; [left; reflexivity|]. intros i [<-|Ii]; [|intros Y; exact (Dj i Ii (or_intror Y))]. intros Y.
        assert (Nd : NoDup (a :: map fst l)).
        { rewrite Em. apply (Permutation_NoDup (l := result_name n :: ts)); [rewrite <- Permutation_rev; apply Permutation_cons_append|].
          constructor; [|exact (vpath_nodup _ _ _ H)]. intros Z. apply (Hr (result_name n)); [apply in_or_app; left; exact Z|reflexivity]. }
        inversion Nd; contradiction.
    + intros V D e. cbn [map fst In]. split.
      * intros A. destruct (A _ _ (or_introl eq_refl)) as [A1 A2]. destruct (proj1 (Se V D e)) as [B1 B2]; [intros t o Ito; apply A; right; exact Ito|]. split.
        -- intros i [<-|Ii]; [exact A1|exact (B1 i Ii)].
        -- intros g Ig. apply in_app_iff in Ig as [Ig|[<-|[]]]; [exact (B2 g Ig)|apply Hc; exact A2].
      * intros [A1 A2] t o [Q|Ito].
        -- injection Q as <- <-. split; [apply A1; left; reflexivity|]. apply Hc. apply A2. apply in_or_app. right. left. reflexivity.
        -- revert t o Ito. apply (Se V D e). split; [intros i Ii; apply A1; right; exact Ii|]. intros g Ig. apply A2. apply in_or_app. left. exact Ig.
Qed.
(** The SQL of a path. *)
Lemma to_sql_ok j i : vpath (j_tables j) (j_fkeys j) i -> (forall k, In k (j_tables j) -> k <> result_name n) ->
  exists s, to_sql j = Some s /\ sj_first s = i /\ sj_first s :: map fst (sj_rest s) = rev (j_tables j) ++ [result_name n] /\ well_formed s
    /\ forall V (D : db V) e, select D s e <-> (forall k, In k (result_name n :: j_tables j) -> D k (e k)) /\ forall f, In f (j_fkeys j) -> refers f (e (f_from f)) (e (f_to f)).
Proof.
  intros H Hr. destruct (rest_ok _ _ _ H Hr) as (l & El & Em & Sc & Se). unfold to_sql.
  assert (R : exists r, rev (j_tables j) = i :: r).
  { destruct (rev (j_tables j)) as [|x r]; [|exists r; cbn [app] in Em; injection Em as <- _; reflexivity]. cbn [app] in Em. injection Em as -> _.
    exfalso. apply (Hr (result_name n)); [exact (vpath_last _ _ _ H)|reflexivity]. }
  destruct R as (r & R). rewrite R, El. eexists. split; [reflexivity|]. cbn [sj_first sj_rest]. split; [reflexivity|]. split; [rewrite Em, R; reflexivity|]. split.
  - unfold well_formed. cbn [sj_first sj_rest]. apply Sc; [left; reflexivity|]. intros k [<-|[]] Y.
    assert (Nd : NoDup (i :: map fst l)).
    { rewrite Em. apply (Permutation_NoDup (l := result_name n :: j_tables j)); [rewrite <- Permutation_rev; apply Permutation_cons_append|].
      constructor; [|exact (vpath_nodup _ _ _ H)]. intros Z. exact (Hr _ Z eq_refl). }
    inversion Nd; contradiction.
  - intros V D e. unfold select. cbn [sj_first sj_rest]. fold (conditions e). change (forall t on, In (t, on) l -> D t (e t) /\ forall a b, In (a, b) on -> equal (value_of e a) (value_of e b))
      with (forall t on, In (t, on) l -> D t (e t) /\ conditions e on). rewrite (Se V D e).
    assert (K : forall k, In k (result_name n :: j_tables j) <-> k = i \/ In k (map fst l)).
    { intros k. assert (Q : In k (i :: map fst l) <-> In k (rev (j_tables j) ++ [result_name n])) by (rewrite Em; reflexivity). cbn [In] in *. rewrite in_app_iff, <- in_rev in Q. cbn [In] in Q. assert (S0 : i = k <-> k = i) by (split; congruence). clear - Q S0. cbn [In]. tauto. }
    split.
    + intros (A & B1 & B2). split; [|exact B2]. intros k Ik. apply K in Ik as [->|Ik]; [exact A|exact (B1 k Ik)].
    + intros (A & C). split; [apply A, K; left; reflexivity|]. split; [|exact C]. intros k Ik. apply A, K. right. exact Ik.
Qed.
End Search.
