(** Running statements on a SQLite database. *)
From Coq Require Import Lia.
From Verif Require Import GoStr GoStrFacts ModelCatalog ModelDdl ModelDiffSql SpecDiff SpecApply SpecLite ApplyFacts.

Lemma set_at_same : forall x n o, set_at x n o n = o.
Proof. intros. unfold set_at. rewrite beqb_refl. reflexivity. Qed.
Lemma set_at_other : forall x n o m, m <> n -> set_at x n o m = x m.
Proof. intros x n o m H. unfold set_at. destruct (beqb_spec m n); [contradiction|reflexivity]. Qed.
Lemma put_same : forall A (f : bytes -> option A) n o, put f n o n = o.
Proof. intros. unfold put. rewrite beqb_refl. reflexivity. Qed.
Lemma put_other : forall A (f : bytes -> option A) n o m, m <> n -> put f n o m = f m.
Proof. intros A f n o m H. unfold put. destruct (beqb_spec m n); [contradiction|reflexivity]. Qed.
Lemma change_lt_some : forall x n f lt, x n = Some lt -> change_lt x n f = set_at x n (Some (f lt)).
Proof. intros x n f lt E. unfold change_lt. rewrite E. reflexivity. Qed.

Lemma filter_filter : forall A (f g : A -> bool) l, filter f (filter g l) = filter (fun x => g x && f x) l.
Proof. intros A f g. induction l as [|x l IH]; [reflexivity|]. cbn [filter]. destruct (g x); cbn [andb filter]; [destruct (f x)|]; rewrite IH; reflexivity. Qed.

Section Run.
Context (ref : bytes -> bytes -> option lkey).
Lemma lite_runs_app : forall l1 l2 x, lite_runs ref (l1 ++ l2) x <-> lite_runs ref l1 x /\ lite_runs ref l2 (lite_after ref l1 x).
Proof.
  induction l1 as [|s l1 IH]; intros l2 x; cbn [app lite_runs lite_after fold_left]; [tauto|].
  rewrite IH. unfold lite_after. tauto.
Qed.
Lemma lite_after_app : forall l1 l2 x, lite_after ref (l1 ++ l2) x = lite_after ref l2 (lite_after ref l1 x).
Proof. intros. apply fold_left_app. Qed.
Lemma lite_after_cons : forall s l x, lite_after ref (s :: l) x = lite_after ref l (lite_effect ref x s).
Proof. reflexivity. Qed.

Context (a b : list table).
Hypothesis (SEP : lite_separate a b) (FREE : lite_free a b).

Definition of_either (u : table) : Prop := In u a \/ In u b.
(** What a table is made of comes from one of the two catalogs. *)
Definition fits_in (m : bytes) (lt : ltable) : Prop :=
  (exists u, of_either u /\ tb_name u = m)
  /\ (forall n i, lt_indexes lt n = Some i -> exists u, of_either u /\ tb_name u = m /\ In n (map ix_name (tb_indexes u)))
  /\ forall k, In k (lt_keys lt) -> lk_kind k = FOREIGN_KEY -> exists u c, of_either u /\ In c (tb_constraints u) /\ foreign c /\ con_reftable c = lk_table k.
Definition bounded (x : ldatabase) : Prop := forall m lt, x m = Some lt -> fits_in m lt.
Lemma bounded_set : forall x n lt, bounded x -> fits_in n lt -> bounded (set_at x n (Some lt)).
Proof.
  intros x n lt H F m l E. unfold set_at in E. destruct (beqb_spec m n) as [->|]; [injection E as <-; exact F|exact (H m l E)].
Qed.
Lemma bounded_none : forall x n, bounded x -> bounded (set_at x n None).
Proof. intros x n H m l E. unfold set_at in E. destruct (beqb_spec m n) as [->|]; [discriminate|exact (H m l E)]. Qed.

Lemma owned_table : forall u n, of_either u -> tb_name u = n -> table_or_index a n None \/ table_or_index b n None.
Proof. intros u n [H|H] E; [left|right]; exists u; split; assumption. Qed.
Lemma owned_index : forall u n, of_either u -> In n (map ix_name (tb_indexes u)) ->
  table_or_index a n (Some (tb_name u)) \/ table_or_index b n (Some (tb_name u)).
Proof. intros u n [H|H] E; [left|right]; exists u; (split; [assumption|split; [reflexivity|assumption]]). Qed.

Lemma unused_table : forall x u, bounded x -> of_either u -> x (tb_name u) = None -> unused x (tb_name u).
Proof.
  intros x u H K E. split; [exact E|]. intros m lt Em. destruct (lt_indexes lt (tb_name u)) as [i|] eqn:Ei; [|reflexivity].
  destruct (H m lt Em) as (_ & F & _). destruct (F _ _ Ei) as (v & Kv & Ev & Iv).
  pose proof (SEP _ _ _ (owned_table u _ K eq_refl) (owned_index v _ Kv Iv)). discriminate.
Qed.
Lemma unused_index : forall x u n, bounded x -> of_either u -> In n (map ix_name (tb_indexes u)) ->
  (forall lt, x (tb_name u) = Some lt -> lt_indexes lt n = None) -> unused x n.
Proof.
  intros x u n H K I E. split.
  - destruct (x n) as [lt|] eqn:En; [|reflexivity]. destruct (H n lt En) as ((v & Kv & Ev) & _).
    pose proof (SEP _ _ _ (owned_table v _ Kv Ev) (owned_index u _ K I)). discriminate.
  - intros m lt Em. destruct (lt_indexes lt n) as [i|] eqn:Ei; [|reflexivity].
    destruct (H m lt Em) as (_ & F & _). destruct (F _ _ Ei) as (v & Kv & Ev & Iv).
    pose proof (SEP _ _ _ (owned_index u _ K I) (owned_index v _ Kv Iv)) as Z. injection Z as Z. rewrite <- Z in Ev. subst m.
    rewrite (E lt Em) in Ei. discriminate.
Qed.
Lemma unused_interim : forall x t, bounded x -> In t b -> unused x (interim t).
Proof.
  intros x t H Ht. destruct (FREE t Ht) as (F & _). split.
  - destruct (x (interim t)) as [lt|] eqn:En; [|reflexivity]. destruct (H _ lt En) as ((v & Kv & Ev) & _).
    exfalso. exact (F None (owned_table v _ Kv Ev)).
  - intros m lt Em. destruct (lt_indexes lt (interim t)) as [i|] eqn:Ei; [|reflexivity].
    destruct (H m lt Em) as (_ & G & _). destruct (G _ _ Ei) as (v & Kv & Ev & Iv). exfalso. exact (F _ (owned_index v _ Kv Iv)).
Qed.

Definition index_stmts (l : list index) : list stmt := map (fun i => QCreateIndex (bare (ix_table i)) i false) l.
Definition has_names (lt : ltable) (i : index) : Prop :=
  ix_columns i <> [] /\ ix_sql i = [] /\ forall n, In n (ix_columns i) -> lt_columns lt n <> None \/ wrapped_in_brackets n = true.

Lemma create_indexes : forall t, of_either t -> forall l x lt, bounded x -> x (tb_name t) = Some lt -> NoDup (map ix_name l) ->
  (forall i, In i l -> In i (tb_indexes t) /\ ix_table i = tb_name t /\ has_names lt i /\ lt_indexes lt (ix_name i) = None) ->
  let y := lite_after ref (index_stmts l) x in
  lite_runs ref (index_stmts l) x /\ bounded y /\ (forall m, m <> tb_name t -> y m = x m)
  /\ exists lt', y (tb_name t) = Some lt' /\ lt_columns lt' = lt_columns lt /\ lt_keys lt' = lt_keys lt
     /\ forall n, lt_indexes lt' n = match called ix_name l n with Some i => Some i | None => lt_indexes lt n end.
Proof.
  intros t K. induction l as [|i l IH]; intros x lt H E N A y.
  - subst y. split; [exact Logic.I|]. split; [exact H|]. split; [reflexivity|]. exists lt. split; [exact E|]. repeat split.
  - destruct (A i (or_introl eq_refl)) as (Ai & At & (A1 & A2 & A3) & Af). inversion N as [|z l' Nz Nl]; subst z l'.
    set (lt1 := put_ix (ix_name i) (Some i) lt).
    assert (X : lite_effect ref x (QCreateIndex (bare (ix_table i)) i false) = set_at x (tb_name t) (Some lt1)).
    { cbn [lite_effect bare snd]. rewrite At. apply change_lt_some. exact E. }
    assert (Fi : fits_in (tb_name t) lt1).
    { destruct (H _ _ E) as (F1 & F2 & F3). split; [exact F1|]. split; [|exact F3].
      intros n j Ej. unfold lt1, put_ix, put in Ej. cbn [lt_indexes] in Ej. destruct (beqb_spec n (ix_name i)) as [->|].
      - exists t. split; [exact K|]. split; [reflexivity|]. apply in_map. exact Ai.
      - exact (F2 n j Ej). }
    destruct (IH (set_at x (tb_name t) (Some lt1)) lt1) as (R & Bd & O & lt' & L1 & L2 & L3 & L4).
    + apply bounded_set; assumption.
    + apply set_at_same.
    + exact Nl.
    + intros j Hj. destruct (A j (or_intror Hj)) as (B1 & B2 & B3 & B4). repeat split; try assumption; try apply B3.
      unfold lt1, put_ix. cbn [lt_indexes]. rewrite put_other; [exact B4|]. intro Z. apply Nz. rewrite <- Z. apply in_map. exact Hj.
    + subst y. cbn [index_stmts map lite_runs]. rewrite lite_after_cons, X. change (map _ l) with (index_stmts l).
      split; [split; [|exact R]|].
      { cbn [lite_allowed bare snd]. split.
        - apply (unused_index x t); [exact H|exact K|apply in_map; exact Ai|]. intros l0 E0. rewrite E in E0. injection E0 as <-. exact Af.
        - split; [exact A1|]. split; [exact A2|]. exists lt. rewrite At. split; [exact E|exact A3]. }
      split; [exact Bd|]. split.
      { intros m Hm. rewrite (O m Hm). apply set_at_other. exact Hm. }
      exists lt'. split; [exact L1|]. split; [exact L2|]. split; [exact L3|].
      intro n. rewrite (L4 n). unfold called. cbn [find]. unfold lt1, put_ix, put. cbn [lt_indexes].
      rewrite (beqb_sym n (ix_name i)). destruct (beqb_spec (ix_name i) n) as [<-|Hn]; [|reflexivity].
      destruct (find (fun j => beqb (ix_name j) (ix_name i)) l) as [j|] eqn:Fj; [|reflexivity].
      exfalso. apply find_some in Fj. destruct Fj as (Hj & Ej). apply beqb_eq in Ej. apply Nz. rewrite <- Ej. apply in_map. exact Hj.
Qed.

Lemma drop_indexes : forall t, of_either t -> forall l x lt, bounded x -> x (tb_name t) = Some lt -> NoDup l ->
  (forall n, In n l -> lt_indexes lt n <> None) ->
  let st := map (fun n => QDropIndex (bare (tb_name t)) n) l in
  let y := lite_after ref st x in
  lite_runs ref st x /\ bounded y /\ (forall m, m <> tb_name t -> y m = x m)
  /\ exists lt', y (tb_name t) = Some lt' /\ lt_columns lt' = lt_columns lt /\ lt_keys lt' = lt_keys lt
     /\ forall n, lt_indexes lt' n = if bmem n l then None else lt_indexes lt n.
Proof.
  intros t K. induction l as [|i l IH]; intros x lt H E N A st y.
  - subst st y. split; [exact Logic.I|]. split; [exact H|]. split; [reflexivity|]. exists lt. split; [exact E|]. repeat split.
  - inversion N as [|z l' Nz Nl]; subst z l'. set (lt1 := put_ix i None lt). set (x1 := lite_effect ref x (QDropIndex (bare (tb_name t)) i)).
    pose proof (A i (or_introl eq_refl)) as Ai.
    assert (X1 : x1 (tb_name t) = Some lt1).
    { unfold x1. cbn [lite_effect]. rewrite E. cbn [option_map]. destruct (lt_indexes lt i); [reflexivity|contradiction]. }
    assert (X2 : forall m, m <> tb_name t -> x1 m = x m).
    { intros m Hm. unfold x1. cbn [lite_effect]. destruct (x m) as [l0|] eqn:Em; [|reflexivity]. cbn [option_map].
      destruct (lt_indexes l0 i) as [j|] eqn:Ej; [|reflexivity]. exfalso.
      destruct (lt_indexes lt i) as [j'|] eqn:Ej'; [|contradiction].
      destruct (H _ _ E) as (_ & F & _). destruct (F _ _ Ej') as (u & Ku & Eu & Iu).
      destruct (H _ _ Em) as (_ & F' & _). destruct (F' _ _ Ej) as (v & Kv & Ev & Iv).
      pose proof (SEP _ _ _ (owned_index u _ Ku Iu) (owned_index v _ Kv Iv)) as Z. injection Z as Z. congruence. }
    assert (Bd1 : bounded x1).
    { intros m l0 Em. destruct (beqb_spec m (tb_name t)) as [->|Hm].
      - rewrite X1 in Em. injection Em as <-. destruct (H _ _ E) as (F1 & F2 & F3). split; [exact F1|]. split; [|exact F3].
        intros n j Ej. apply (F2 n j). unfold lt1, put_ix, put in Ej. cbn [lt_indexes] in Ej. destruct (beqb n i); [discriminate|exact Ej].
      - rewrite (X2 m Hm) in Em. exact (H m l0 Em). }
    destruct (IH x1 lt1) as (R & Bd & O & lt' & L1 & L2 & L3 & L4).
    + exact Bd1.
    + exact X1.
    + exact Nl.
    + intros n Hn. unfold lt1, put_ix. cbn [lt_indexes]. rewrite put_other; [exact (A n (or_intror Hn))|]. intro Z. subst n. contradiction.
    + subst st y. cbn [map lite_runs]. rewrite lite_after_cons. fold x1. split; [split; [|exact R]|].
      { cbn [lite_allowed]. exists (tb_name t), lt. split; assumption. }
      split; [exact Bd|]. split.
      { intros m Hm. rewrite (O m Hm). exact (X2 m Hm). }
      exists lt'. split; [exact L1|]. split; [exact L2|]. split; [exact L3|].
      intro n. rewrite (L4 n). unfold lt1, put_ix, put. cbn [lt_indexes]. unfold bmem. cbn [existsb].
      destruct (beqb n i); cbn [orb]; destruct (existsb (beqb n) l); reflexivity.
Qed.

(** The keys that remain when columns are dropped. *)
Definition outlives (l : list bytes) (k : lkey) : bool := negb (lk_inline k && existsb (fun n => bmem n (lk_columns k)) l).
Lemma drop_columns : forall t, of_either t -> forall l x lt, bounded x -> x (tb_name t) = Some lt -> NoDup l ->
  (forall n, In n l -> lt_columns lt n <> None) ->
  (exists m, ~ In m l /\ lt_columns lt m <> None) ->
  (forall n k, In n l -> In k (lt_keys lt) -> In n (lk_columns k) -> lk_kind k = FOREIGN_KEY /\ lk_inline k = true) ->
  (forall n m i, In n l -> lt_indexes lt m = Some i -> In n (ix_columns i) -> wrapped_in_brackets n = true) ->
  let st := map (fun n => QDropColumn (bare (tb_name t)) n) l in
  let y := lite_after ref st x in
  lite_runs ref st x /\ bounded y /\ (forall m, m <> tb_name t -> y m = x m)
  /\ exists lt', y (tb_name t) = Some lt' /\ lt_indexes lt' = lt_indexes lt /\ lt_keys lt' = filter (outlives l) (lt_keys lt)
     /\ forall n, lt_columns lt' n = if bmem n l then None else lt_columns lt n.
Proof.
  intros t K. induction l as [|i l IH]; intros x lt H E N A (m0 & M1 & M2) P Q st y.
  - subst st y. split; [exact Logic.I|]. split; [exact H|]. split; [reflexivity|]. exists lt. split; [exact E|]. split; [reflexivity|]. split; [|reflexivity].
    unfold outlives. cbn [existsb]. clear. induction (lt_keys lt) as [|k l IH]; [reflexivity|]. cbn [filter]. rewrite andb_false_r. cbn [negb]. rewrite <- IH. reflexivity.
  - inversion N as [|z l' Nz Nl]; subst z l'.
    set (lt1 := LTable (put (lt_columns lt) i None) (filter (fun k => negb (lk_inline k && bmem i (lk_columns k))) (lt_keys lt)) (lt_indexes lt)).
    assert (X : lite_effect ref x (QDropColumn (bare (tb_name t)) i) = set_at x (tb_name t) (Some lt1)).
    { cbn [lite_effect bare snd]. exact (change_lt_some _ _ _ _ E). }
    assert (Fi : fits_in (tb_name t) lt1).
    { destruct (H _ _ E) as (F1 & F2 & F3). split; [exact F1|]. split; [exact F2|].
      intros k Hk. apply filter_In in Hk. exact (F3 k (proj1 Hk)). }
    destruct (IH (set_at x (tb_name t) (Some lt1)) lt1) as (R & Bd & O & lt' & L1 & L2 & L3 & L4).
    + apply bounded_set; assumption.
    + apply set_at_same.
    + exact Nl.
    + intros n Hn. cbn [lt1 lt_columns]. rewrite put_other; [exact (A n (or_intror Hn))|]. intro Z. subst n. contradiction.
    + exists m0. split; [intro Z; apply M1; right; exact Z|]. cbn [lt1 lt_columns]. rewrite put_other; [exact M2|]. intro Z. apply M1. left. symmetry. exact Z.
    + intros n k Hn Hk. cbn [lt1 lt_keys] in Hk. apply filter_In in Hk. exact (P n k (or_intror Hn) (proj1 Hk)).
    + intros n m j Hn. exact (Q n m j (or_intror Hn)).
    + subst st y. cbn [map lite_runs]. rewrite lite_after_cons, X. split; [split; [|exact R]|].
      { cbn [lite_allowed bare snd]. exists lt. split; [exact E|]. split; [exact (A i (or_introl eq_refl))|]. split.
        - exists m0. split; [intro Z; apply M1; left; symmetry; exact Z|exact M2].
        - split; [intros k; exact (P i k (or_introl eq_refl))|intros m j; exact (Q i m j (or_introl eq_refl))]. }
      split; [exact Bd|]. split.
      { intros m Hm. rewrite (O m Hm). apply set_at_other. exact Hm. }
      exists lt'. split; [exact L1|]. split; [exact L2|]. split.
      { rewrite L3. cbn [lt1 lt_keys]. rewrite filter_filter. apply filter_ext. intro k. unfold outlives. cbn [existsb].
        destruct (lk_inline k); cbn [andb negb]; [|reflexivity]. rewrite negb_orb. reflexivity. }
      intro n. rewrite (L4 n). cbn [lt1 lt_columns]. unfold put, bmem. cbn [existsb].
      destruct (beqb n i); cbn [orb]; destruct (existsb (beqb n) l); reflexivity.
Qed.

Definition new_refs (t : bytes) (l : list column) : list lkey :=
  flat_map (fun c => match ref t (col_name c) with Some k => [k] | None => [] end) l.
Lemma add_columns : forall t, of_either t -> forall l x lt, bounded x -> x (tb_name t) = Some lt -> NoDup (map col_name l) ->
  (forall c, In c l -> lt_columns lt (col_name c) = None /\ addable c) ->
  (forall c k, In c l -> ref (tb_name t) (col_name c) = Some k -> exists u d, of_either u /\ In d (tb_constraints u) /\ foreign d /\ con_reftable d = lk_table k) ->
  let st := map (QAddColumn (bare (tb_name t))) l in
  let y := lite_after ref st x in
  lite_runs ref st x /\ bounded y /\ (forall m, m <> tb_name t -> y m = x m)
  /\ exists lt', y (tb_name t) = Some lt' /\ lt_indexes lt' = lt_indexes lt /\ lt_keys lt' = lt_keys lt ++ new_refs (tb_name t) l
     /\ forall n, lt_columns lt' n = match called col_name l n with Some c => Some (lite_column c) | None => lt_columns lt n end.
Proof.
  intros t K. induction l as [|i l IH]; intros x lt H E N A P st y.
  - subst st y. split; [exact Logic.I|]. split; [exact H|]. split; [reflexivity|]. exists lt. split; [exact E|]. split; [reflexivity|]. split; [|reflexivity].
    symmetry. apply app_nil_r.
  - inversion N as [|z l' Nz Nl]; subst z l'. destruct (A i (or_introl eq_refl)) as (A1 & A2).
    set (extra := match ref (tb_name t) (col_name i) with Some k => [k] | None => [] end).
    set (lt1 := LTable (put (lt_columns lt) (col_name i) (Some (lite_column i))) (lt_keys lt ++ extra) (lt_indexes lt)).
    assert (X : lite_effect ref x (QAddColumn (bare (tb_name t)) i) = set_at x (tb_name t) (Some lt1)).
    { cbn [lite_effect bare snd]. exact (change_lt_some _ _ _ _ E). }
    assert (Fi : fits_in (tb_name t) lt1).
    { destruct (H _ _ E) as (F1 & F2 & F3). split; [exact F1|]. split; [exact F2|].
      intros k Hk Hf. cbn [lt1 lt_keys] in Hk. apply in_app_or in Hk. destruct Hk as [Hk|Hk]; [exact (F3 k Hk Hf)|].
      unfold extra in Hk. destruct (ref (tb_name t) (col_name i)) as [k'|] eqn:Er; [|contradiction]. destruct Hk as [->|[]].
      exact (P i k (or_introl eq_refl) Er). }
    destruct (IH (set_at x (tb_name t) (Some lt1)) lt1) as (R & Bd & O & lt' & L1 & L2 & L3 & L4).
    + apply bounded_set; assumption.
    + apply set_at_same.
    + exact Nl.
    + intros c Hc. destruct (A c (or_intror Hc)) as (B1 & B2). split; [|exact B2]. cbn [lt1 lt_columns]. rewrite put_other; [exact B1|].
      intro Z. apply Nz. rewrite <- Z. apply in_map. exact Hc.
    + intros c k Hc. exact (P c k (or_intror Hc)).
    + subst st y. cbn [map lite_runs]. rewrite lite_after_cons, X. split; [split; [|exact R]|].
      { cbn [lite_allowed bare snd]. exists lt. exact (conj E (conj A1 A2)). }
      split; [exact Bd|]. split.
      { intros m Hm. rewrite (O m Hm). apply set_at_other. exact Hm. }
      exists lt'. split; [exact L1|]. split; [exact L2|]. split.
      { rewrite L3. cbn [lt1 lt_keys]. unfold new_refs. cbn [flat_map]. fold extra. rewrite app_assoc. reflexivity. }
      intro n. rewrite (L4 n). cbn [lt1 lt_columns]. unfold called, put. cbn [find].
      rewrite (beqb_sym n (col_name i)). destruct (beqb_spec (col_name i) n) as [<-|Hn]; [|reflexivity].
      destruct (find (fun j => beqb (col_name j) (col_name i)) l) as [j|] eqn:Fj; [|reflexivity].
      exfalso. apply find_some in Fj. destruct Fj as (Hj & Ej). apply beqb_eq in Ej. apply Nz. rewrite <- Ej. apply in_map. exact Hj.
Qed.
End Run.
