(** What the lookups of the catalog comparison find. *)
From Coq Require Import Lia FinFun.
From Verif Require Import GoStr GoStrFacts ModelCatalog ModelCache CacheFacts ModelDiff ModelDiffSql SpecDiff.

(** The last object with the name, unless it is ignored. *)
Definition last_named {A} (name : A -> bytes) (l : list A) (n : bytes) : option A :=
  find (fun a => beqb (name a) n) (rev l).
Definition pick {A} (name : A -> bytes) (ign : A -> bool) (l : list A) (n : bytes) : option A :=
  match last_named name l n with
  | Some a => if ign a then None else Some a
  | None => None
  end.
Definition last_pos {A} (name : A -> bytes) (l : list A) (n : bytes) : option nat :=
  fold_left (fun o '(k, a) => if beqb (name a) n then Some k else o) (indexed l) None.

Lemma last_pos_snoc : forall {A} (name : A -> bytes) l a n,
  last_pos name (l ++ [a]) n = if beqb (name a) n then Some (List.length l) else last_pos name l n.
Proof. intros A name l a n. unfold last_pos. rewrite indexed_snoc, fold_left_app. reflexivity. Qed.

Lemma last_named_snoc : forall {A} (name : A -> bytes) l a n,
  last_named name (l ++ [a]) n = if beqb (name a) n then Some a else last_named name l n.
Proof. intros A name l a n. unfold last_named. rewrite rev_app_distr. reflexivity. Qed.

Lemma last_pos_named : forall {A} (name : A -> bytes) l n,
  match last_pos name l n with
  | Some i => nth_error l i = last_named name l n /\ i < List.length l
  | None => last_named name l n = None
  end.
Proof.
  intros A name l n. induction l as [|a l IH] using rev_ind; [reflexivity|].
  rewrite last_pos_snoc, last_named_snoc, app_length. cbn [List.length].
  destruct (beqb (name a) n).
  - split; [|lia]. apply nth_last.
  - destruct (last_pos name l n) as [i|]; [|exact IH]. destruct IH as (E & L).
    split; [|lia]. rewrite nth_error_app1 by exact L. exact E.
Qed.

Lemma value_last : forall {A} (name : A -> bytes) ign l n,
  value_at l (at_pos ign l (last_pos name l n)) = Ok (pick name ign l n).
Proof.
  intros A name ign l n. pose proof (last_pos_named name l n) as P. unfold pick, at_pos, value_at.
  destruct (last_pos name l n) as [i|]; [|rewrite P; reflexivity].
  destruct P as (E & L). rewrite <- E. destruct (nth_error l i) as [a|] eqn:Ea.
  - destruct (ign a); cbn; [reflexivity|]. rewrite Ea. reflexivity.
  - apply nth_error_None in Ea. lia.
Qed.

(** ** The maps of the cache *)
Lemma fold_last : forall A (okb : bytes -> bool) name (K : bytes -> key) (l : list A) (m0 : kmap) n,
  (forall n n', K n = K n' -> n = n') -> m0 (K n) = None ->
  fold_left (fun m '(j, a) => if okb (name a) then upd m (K (name a)) (Some j) else m) (indexed l) m0 (K n)
  = if okb n then last_pos name l n else None.
Proof.
  intros A okb name K l m0 n I0 E. induction l as [|a l IH] using rev_ind.
  - cbn. rewrite E. destruct (okb n); reflexivity.
  - rewrite indexed_snoc, fold_left_app, last_pos_snoc. cbn [fold_left].
    destruct (beqb_spec (name a) n) as [->|N].
    + destruct (okb n) eqn:O; [apply upd_same|]. exact IH.
    + destruct (okb (name a)); [|exact IH]. rewrite upd_other; [exact IH|]. intro Z. apply N, I0, Z.
Qed.

Lemma NoDup_own_unique : forall schemas, unique_tables schemas -> NoDup (map own (all_tables schemas)).
Proof.
  intros schemas (N & F). induction schemas as [|s schemas IH]; [constructor|].
  cbn [all_tables flat_map]. cbn [map] in N. inversion N as [|u v H1 H2]; subst.
  rewrite map_app. apply NoDup_join.
  - rewrite map_map. destruct (F s (or_introl eq_refl)) as (H3 & _).
    change (fun x : nat * table => own (s, x)) with (fun x : nat * table => [sc_name s; tb_name (snd x)]).
    rewrite <- (map_map (@snd nat table) (fun t => [sc_name s; tb_name t])), map_snd_indexed.
    rewrite <- (map_map tb_name (fun n => [sc_name s; n])).
    apply FinFun.Injective_map_NoDup; [|exact H3]. intros a b E. injection E. auto.
  - apply IH; [assumption|]. intros s' Hs'. apply F. right. exact Hs'.
  - intros k Hk1 Hk2. apply in_map_iff in Hk1. destruct Hk1 as (p & <- & Hp).
    apply in_map_iff in Hp. destruct Hp as (q & <- & Hq).
    apply in_map_iff in Hk2. destruct Hk2 as ([s' [j t]] & E & H).
    apply in_all_tables in H. unfold own in E. cbn in E. injection E as E _.
    apply H1. rewrite <- E. apply in_map. apply H.
Qed.

Definition pkpos (l : list constraint) : option nat := last_pos con_type l PRIMARY_KEY.

Lemma pk_fold_last : forall l (m : kmap) k, m k = None ->
  fold_left (fun m '(j, c) => if beqb (con_type c) PRIMARY_KEY then upd m k (Some j) else m) (indexed l) m k = pkpos l.
Proof.
  intros l m k E. unfold pkpos. induction l as [|a l IH] using rev_ind; [exact E|].
  rewrite indexed_snoc, fold_left_app, last_pos_snoc. cbn [fold_left].
  destruct (beqb (con_type a) PRIMARY_KEY); [apply upd_same|exact IH].
Qed.

Record entries (c : cache) (s : schema) (j : nat) (t : table) : Prop := {
  en_table : ca_tables c [sc_name s; tb_name t] = Some j;
  en_column : forall n, ca_columns c [sc_name s; tb_name t; n] = last_pos col_name (tb_columns t) n;
  en_constraint : forall n, ca_constraints c [sc_name s; tb_name t; n]
                            = if some_name n then last_pos con_name (tb_constraints t) n else None;
  en_index : forall n, ca_indexes c [sc_name s; tb_name t; n] = last_pos ix_name (tb_indexes t) n;
  en_pkey : ca_pkeys c [sc_name s; tb_name t] = pkpos (tb_constraints t);
  en_fkeys : ca_fkeys c [sc_name s; tb_name t] = fkpos (tb_constraints t)
}.

Lemma new_cache_entries : forall schemas s j t, unique_tables schemas ->
  In s schemas -> nth_error (sc_tables s) j = Some t -> entries (new_cache schemas) s j t.
Proof.
  intros schemas s j t D Hs Hj.
  assert (P : In (s, (j, t)) (all_tables schemas)) by (apply in_all_tables; auto).
  pose proof (NoDup_own_unique _ D) as N.
  assert (K3 : forall n n' : bytes, [sc_name s; tb_name t; n] = [sc_name s; tb_name t; n'] -> n = n')
    by (intros n n' E; injection E; auto).
  split.
  - cbn [new_cache ca_tables].
    destruct (outer_at (fun m '(s, (j, t)) => upd m [sc_name s; tb_name t] (Some j)) own _ (fun _ => None) _
      ltac:(intros m [s' [j' t']] k D'; apply upd_other; intro Z; subst k; apply D'; reflexivity) N P) as (m & _ & E).
    etransitivity; [exact (E [sc_name s; tb_name t] eq_refl)|]. apply upd_same.
  - intro n. cbn [new_cache ca_columns].
    destruct (outer_at (fun m '(s, (_, t)) =>
         fold_left (fun m '(k, c) => upd m [sc_name s; tb_name t; col_name c] (Some k)) (indexed (tb_columns t)) m) own _ (fun _ => None) _
      ltac:(intros m [s' [j' t']] k D'; apply (fold_away _ (fun _ => true) col_name (fun n => [sc_name s'; tb_name t'; n])); intros n' Z; subst k; apply D'; reflexivity) N P) as (m & M & E).
    etransitivity; [exact (E [sc_name s; tb_name t; n] eq_refl)|].
    exact (fold_last _ (fun _ => true) col_name (fun n => [sc_name s; tb_name t; n]) (tb_columns t) m n K3 (M [sc_name s; tb_name t; n] eq_refl)).
  - intro n. cbn [new_cache ca_constraints].
    destruct (outer_at (fun m '(s, (_, t)) =>
         fold_left (fun m '(k, c) => match con_name c with [] => m | _ => upd m [sc_name s; tb_name t; con_name c] (Some k) end) (indexed (tb_constraints t)) m) own _ (fun _ => None) _
      ltac:(intros m [s' [j' t']] k D'; rewrite con_loop; apply (fold_away _ some_name con_name (fun n => [sc_name s'; tb_name t'; n])); intros n' Z; subst k; apply D'; reflexivity) N P) as (m & M & E).
    etransitivity; [exact (E [sc_name s; tb_name t; n] eq_refl)|]. cbn beta iota. rewrite con_loop.
    exact (fold_last _ some_name con_name (fun n => [sc_name s; tb_name t; n]) (tb_constraints t) m n K3 (M [sc_name s; tb_name t; n] eq_refl)).
  - intro n. cbn [new_cache ca_indexes].
    destruct (outer_at (fun m '(s, (_, t)) =>
         fold_left (fun m '(k, c) => upd m [sc_name s; tb_name t; ix_name c] (Some k)) (indexed (tb_indexes t)) m) own _ (fun _ => None) _
      ltac:(intros m [s' [j' t']] k D'; apply (fold_away _ (fun _ => true) ix_name (fun n => [sc_name s'; tb_name t'; n])); intros n' Z; subst k; apply D'; reflexivity) N P) as (m & M & E).
    etransitivity; [exact (E [sc_name s; tb_name t; n] eq_refl)|].
    exact (fold_last _ (fun _ => true) ix_name (fun n => [sc_name s; tb_name t; n]) (tb_indexes t) m n K3 (M [sc_name s; tb_name t; n] eq_refl)).
  - cbn [new_cache ca_pkeys].
    destruct (outer_at (fun m '(s, (_, t)) =>
         fold_left (fun m '(k, c) => if beqb (con_type c) PRIMARY_KEY then upd m [sc_name s; tb_name t] (Some k) else m) (indexed (tb_constraints t)) m) own _ (fun _ => None) _
      ltac:(intros m [s' [j' t']] k D'; apply pk_fold_away; intro Z; subst k; apply D'; reflexivity) N P) as (m & M & E).
    etransitivity; [exact (E [sc_name s; tb_name t] eq_refl)|]. apply pk_fold_last. exact (M [sc_name s; tb_name t] eq_refl).
  - cbn [new_cache ca_fkeys].
    destruct (outer_at (fun m '(s, (_, t)) =>
         fold_left (fun m '(k, c) => if beqb (con_type c) FOREIGN_KEY then upd m [sc_name s; tb_name t] (m [sc_name s; tb_name t] ++ [k]) else m) (indexed (tb_constraints t)) m) own _ (fun _ => []) _
      ltac:(intros m [s' [j' t']] k D'; apply fk_fold_away; intro Z; subst k; apply D'; reflexivity) N P) as (m & M & E).
    etransitivity; [exact (E [sc_name s; tb_name t] eq_refl)|].
    etransitivity; [apply fk_fold|]. rewrite (M [sc_name s; tb_name t] eq_refl). reflexivity.
Qed.

Lemma last_named_in : forall {A} (name : A -> bytes) l n a, last_named name l n = Some a -> In a l /\ name a = n.
Proof.
  intros A name l n a H. apply find_some in H. destruct H as (H & E). apply in_rev in H. apply beqb_eq in E. auto.
Qed.
Lemma last_named_none : forall {A} (name : A -> bytes) l n, last_named name l n = None -> forall a, In a l -> name a <> n.
Proof.
  intros A name l n H a Ha E. apply in_rev in Ha. pose proof (find_none _ _ H a Ha) as F. cbn in F.
  rewrite E in F. rewrite (proj2 (beqb_eq n n) eq_refl) in F. discriminate.
Qed.

(** ** Lookups *)
Lemma look_schema_pick : forall schemas n, look_schema (new_state schemas) n = Ok (pick sc_name sc_ignore schemas n).
Proof.
  intros schemas n. unfold look_schema, get_schema. rewrite <- value_last. f_equal. f_equal.
  cbn [new_state st_cache st_schemas new_cache ca_schemas].
  exact (fold_last _ (fun _ => true) sc_name (fun n => [n]) schemas (fun _ => None) n
           ltac:(intros a b E; injection E; auto) eq_refl).
Qed.

Lemma table_pos : forall schemas s n, unique_tables schemas -> In s schemas ->
  ca_tables (new_cache schemas) [sc_name s; n] = last_pos tb_name (sc_tables s) n.
Proof.
  intros schemas s n U Hs. destruct (last_pos tb_name (sc_tables s) n) as [i|] eqn:L.
  - pose proof (last_pos_named tb_name (sc_tables s) n) as P. rewrite L in P. destruct P as (E & Lt).
    destruct (nth_error (sc_tables s) i) as [t|] eqn:Et; [|apply nth_error_None in Et; lia].
    symmetry in E. apply last_named_in in E. destruct E as (_ & <-).
    apply (en_table _ _ _ _ (new_cache_entries _ _ _ _ U Hs Et)).
  - apply new_cache_blank. intro H. apply in_map_iff in H. destruct H as ([s' [j t]] & E & H).
    apply in_all_tables in H. destruct H as (Hs' & Ht). unfold own in E. cbn in E. injection E as Es Et.
    assert (s' = s) by (eapply NoDup_map_inj_on; [apply U|assumption|assumption|exact Es]). subst s'.
    pose proof (last_pos_named tb_name (sc_tables s) n) as P. rewrite L in P.
    apply (last_named_none _ _ _ P t); [eapply nth_error_In; exact Ht|exact Et].
Qed.

Lemma look_table_pick : forall schemas s n, unique_tables schemas -> In s schemas ->
  look_table (new_cache schemas) s n = Ok (pick tb_name tb_ignore (sc_tables s) n).
Proof.
  intros schemas s n U Hs. unfold look_table, get_table. rewrite (table_pos _ _ _ U Hs). apply value_last.
Qed.

Lemma table_entries : forall schemas s t, unique_tables schemas -> In s schemas -> In t (sc_tables s) ->
  tb_schema t = sc_name s /\ exists j, entries (new_cache schemas) s j t.
Proof.
  intros schemas s t U Hs Ht. split; [apply U; assumption|]. destruct (In_nth_error _ _ Ht) as [j Hj].
  exists j. apply new_cache_entries; assumption.
Qed.

Lemma look_column_pick : forall schemas s t n, unique_tables schemas -> In s schemas -> In t (sc_tables s) ->
  look_column (new_cache schemas) t n = Ok (pick col_name col_ignore (tb_columns t) n).
Proof.
  intros schemas s t n U Hs Ht. destruct (table_entries _ _ _ U Hs Ht) as (E & j & En).
  unfold look_column, get_column. rewrite E, (en_column _ _ _ _ En). apply value_last.
Qed.
Definition pick_con (l : list constraint) (n : bytes) : option constraint :=
  if some_name n then pick con_name con_ignore l n else None.
Lemma look_constraint_pick : forall schemas s t n, unique_tables schemas -> In s schemas -> In t (sc_tables s) ->
  look_constraint (new_cache schemas) t n = Ok (pick_con (tb_constraints t) n).
Proof.
  intros schemas s t n U Hs Ht. destruct (table_entries _ _ _ U Hs Ht) as (E & j & En).
  unfold look_constraint, get_constraint, pick_con. rewrite E, (en_constraint _ _ _ _ En).
  destruct (some_name n); [apply value_last|reflexivity].
Qed.
Lemma look_index_pick : forall schemas s t n, unique_tables schemas -> In s schemas -> In t (sc_tables s) ->
  look_index (new_cache schemas) t n = Ok (pick ix_name ix_ignore (tb_indexes t) n).
Proof.
  intros schemas s t n U Hs Ht. destruct (table_entries _ _ _ U Hs Ht) as (E & j & En).
  unfold look_index, get_index. rewrite E, (en_index _ _ _ _ En). apply value_last.
Qed.
Lemma look_primary_key_pick : forall schemas s t, unique_tables schemas -> In s schemas -> In t (sc_tables s) ->
  look_primary_key (new_cache schemas) t = Ok (pick con_type con_ignore (tb_constraints t) PRIMARY_KEY).
Proof.
  intros schemas s t U Hs Ht. destruct (table_entries _ _ _ U Hs Ht) as (E & j & En).
  unfold look_primary_key, get_primary_key. rewrite E, (en_pkey _ _ _ _ En). apply value_last.
Qed.
Lemma get_primary_key_pos : forall schemas s t, unique_tables schemas -> In s schemas -> In t (sc_tables s) ->
  get_primary_key (new_cache schemas) t = at_pos con_ignore (tb_constraints t) (pkpos (tb_constraints t)).
Proof.
  intros schemas s t U Hs Ht. destruct (table_entries _ _ _ U Hs Ht) as (E & j & En).
  unfold get_primary_key. rewrite E, (en_pkey _ _ _ _ En). reflexivity.
Qed.
Definition live_fkeys (t : table) : list constraint :=
  filter (fun x => is_fkey x && negb (con_ignore x)) (tb_constraints t).
Lemma get_foreign_keys_all : forall schemas s t, unique_tables schemas -> In s schemas -> In t (sc_tables s) ->
  get_foreign_keys (new_cache schemas) t = Ok (live_fkeys t).
Proof.
  intros schemas s t U Hs Ht. destruct (table_entries _ _ _ U Hs Ht) as (E & j & En).
  unfold get_foreign_keys. rewrite E, (en_fkeys _ _ _ _ En). apply collect_fkpos.
Qed.

(** ** What is found *)
Lemma pick_some : forall {A} (name : A -> bytes) ign l n a, pick name ign l n = Some a ->
  In a l /\ name a = n /\ ign a = false.
Proof.
  intros A name ign l n a H. unfold pick in H. destruct (last_named name l n) as [b|] eqn:E; [|discriminate].
  apply last_named_in in E. destruct (ign b) eqn:I; [discriminate|]. injection H as <-. tauto.
Qed.
Lemma pick_unique : forall {A} (name : A -> bytes) ign l a, NoDup (map name l) -> In a l -> ign a = false ->
  pick name ign l (name a) = Some a.
Proof.
  intros A name ign l a N Ha Ia. unfold pick. destruct (last_named name l (name a)) as [b|] eqn:E.
  - apply last_named_in in E. destruct E as (Hb & Eb).
    assert (b = a) by (eapply NoDup_map_inj_on; eassumption). subst b. rewrite Ia. reflexivity.
  - exfalso. exact (last_named_none _ _ _ E a Ha eq_refl).
Qed.
Lemma pick_none : forall {A} (name : A -> bytes) ign l n, NoDup (map name l) ->
  (pick name ign l n = None <-> forall a, In a l -> ign a = false -> name a <> n).
Proof.
  intros A name ign l n N. split.
  - intros P a Ha Ia <-. rewrite (pick_unique name ign l a N Ha Ia) in P. discriminate.
  - intros H. destruct (pick name ign l n) as [a|] eqn:P; [|reflexivity].
    apply pick_some in P. destruct P as (Ha & Na & Ia). exfalso. exact (H a Ha Ia Na).
Qed.
Lemma pick_the : forall {A} (name : A -> bytes) ign l n, NoDup (map name l) -> pick name ign l n = the name ign l n.
Proof.
  intros A name ign l n N. unfold the. destruct (find _ l) as [a|] eqn:F.
  - apply find_some in F. destruct F as (Ha & E). apply andb_true_iff in E. destruct E as (E & I0).
    apply beqb_eq in E. apply negb_true_iff in I0. subst n. apply pick_unique; assumption.
  - apply pick_none; [exact N|]. intros a Ha Ia E. pose proof (find_none _ _ F a Ha) as G. cbn in G.
    rewrite E, Ia, (proj2 (beqb_eq n n) eq_refl) in G. discriminate.
Qed.

(** ** The loops *)
Lemma filterr_ok : forall {A} (f : A -> result bool) (g : A -> bool) l,
  (forall a, In a l -> f a = Ok (g a)) -> filterr f l = Ok (filter g l).
Proof.
  intros A f g l. induction l as [|a l IH]; intro H; cbn; [reflexivity|].
  rewrite (H a (or_introl eq_refl)), IH by (intros b Hb; apply H; right; exact Hb). cbn.
  reflexivity.
Qed.
Lemma flatr_ok : forall {A C} (f : A -> result (list C)) (g : A -> list C) l,
  (forall a, In a l -> f a = Ok (g a)) -> flatr f l = Ok (flat_map g l).
Proof.
  intros A C f g l. induction l as [|a l IH]; intro H; cbn; [reflexivity|].
  rewrite (H a (or_introl eq_refl)), IH by (intros b Hb; apply H; right; exact Hb). reflexivity.
Qed.
Lemma filterr_inv : forall {A} (f : A -> result bool) l r, filterr f l = Ok r ->
  forall a, In a r <-> In a l /\ f a = Ok true.
Proof.
  intros A f l. induction l as [|b l IH]; intros r H a; cbn in H.
  - injection H as <-. cbn. tauto.
  - destruct (f b) as [x| |] eqn:F; try discriminate. cbn in H.
    destruct (filterr f l) as [r'| |] eqn:R; try discriminate. cbn in H. injection H as <-.
    specialize (IH r' eq_refl a). destruct x; cbn; rewrite IH.
    + split; [intros [->|[]]; auto|intros [[->|H] G]; auto].
    + split; [intros []; auto|]. intros [[->|H] G]; [congruence|auto].
Qed.
Lemma flatr_inv : forall {A C} (f : A -> result (list C)) l r, flatr f l = Ok r ->
  forall y, In y r <-> exists a x, In a l /\ f a = Ok x /\ In y x.
Proof.
  intros A C f l. induction l as [|b l IH]; intros r H y; cbn in H.
  - injection H as <-. cbn. split; [contradiction|]. intros (a & x & [] & _).
  - destruct (f b) as [z| |] eqn:F; try discriminate. cbn in H.
    destruct (flatr f l) as [r'| |] eqn:R; try discriminate. cbn in H. injection H as <-.
    rewrite in_app_iff, (IH r' eq_refl y). split.
    + intros [H|(a & x & Ha & Fa & Hy)]; [exists b, z|exists a, x]; cbn; auto.
    + intros (a & x & [->|Ha] & Fa & Hy); [left; congruence|right; eauto].
Qed.
Lemma bindr_inv : forall {A C} (r : result A) (f : A -> result C) y, bindr r f = Ok y -> exists x, r = Ok x /\ f x = Ok y.
Proof. intros A C [x| |] f y H; try discriminate. exists x. auto. Qed.

Definition gone {A} (name : A -> bytes) (ign : A -> bool) (find : bytes -> option A) (l : list A) : list A :=
  filter (fun a => negb (ign a) && is_none (find (name a))) l.
Definition both {A} (name : A -> bytes) (ign : A -> bool) (find : bytes -> option A) (l : list A) : list (A * A) :=
  flat_map (fun a => if ign a then [] else match find (name a) with None => [] | Some b => [(b, a)] end) l.
Lemma missing_ok : forall {A} (name : A -> bytes) ign look find (l : list A),
  (forall n, look n = Ok (find n)) -> missing ign (fun a => look (name a)) l = Ok (gone name ign find l).
Proof.
  intros A name ign look find l H. unfold missing, gone. apply filterr_ok. intros a _. rewrite H.
  destruct (ign a); reflexivity.
Qed.
Lemma shared_ok : forall {A} (name : A -> bytes) ign look find (l : list A),
  (forall n, look n = Ok (find n)) -> shared ign (fun a => look (name a)) l = Ok (both name ign find l).
Proof.
  intros A name ign look find l H. unfold shared, both. apply flatr_ok. intros a _. rewrite H.
  destruct (ign a); [reflexivity|]. cbn. destruct (find (name a)); reflexivity.
Qed.
