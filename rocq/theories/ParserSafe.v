(** Proofs about reading table structs: foreign keys have referenced columns, so that no crash
    is left when the types of columns can be read. *)
From Coq Require Import Lia.
From Verif Require Import GoStr GoStrFacts ModelCatalog ModelCache SpecCache CacheFacts CopyFacts ModelDdl NormFacts
  ModelModifier ModifierFacts ModelDiff ModelDiffSql DiffLookup ModelGoTag ModelStructs ModelParser ParserFacts ParserTables.

Local Arguments PRIMARY_KEY : simpl never.
Local Arguments FOREIGN_KEY : simpl never.
Local Arguments UNIQUE : simpl never.

Lemma change_nth_id : forall {A} (l : list A) i, change_nth i (fun a => a) l = l.
Proof. intros A l i. unfold change_nth. destruct (nth_error l i) eqn:E; [apply set_nth_id; exact E|reflexivity]. Qed.
Lemma change_change : forall {A} (l : list A) i f g, change_nth i g (change_nth i f l) = change_nth i (fun a => g (f a)) l.
Proof.
  intros A l i f g. apply nth_error_same. intro j. destruct (Nat.eq_dec i j) as [<-|N].
  - destruct (nth_error l i) as [a|] eqn:E.
    + rewrite (change_nth_at _ _ _ _ (change_nth_at _ _ _ _ E)), (change_nth_at _ _ _ _ E). reflexivity.
    + unfold change_nth. rewrite E, E, E. reflexivity.
  - rewrite !change_nth_other by exact N. reflexivity.
Qed.

Lemma split_byte_cons : forall c s, split_byte c s <> [].
Proof.
  intros c s. induction s as [|x s IH]; cbn; [discriminate|].
  destruct (ceqb x c); [discriminate|]. destruct (split_byte c s); [congruence|discriminate].
Qed.
Lemma set_reference_cols : forall columns s a, columns <> [] -> con_refcolumns (set_reference columns s a) <> [].
Proof.
  intros columns s a N. unfold set_reference, split_reference.
  destruct (cut_byte _ s) as [[x r]|]; [|exact N]. destruct (cut_byte _ r) as [[y z]|]; cbn; apply split_byte_cons.
Qed.

(** What a submodifier does to the constraints. *)
Lemma parse_index_constraints : forall d cols p m p', parse_index d cols p m = Ok p' ->
  tb_constraints (pa_table p') = tb_constraints (pa_table p).
Proof.
  intros d cols p m p' H. unfold parse_index in H. destruct (parsed_value m) as [m'| |]; try discriminate.
  2:{ injection H as <-. reflexivity. }
  cbv zeta in H. revert H. set (cs := if own_value (m_value m') then _ else _).
  set (p1 := if none cs then _ else _). assert (E1 : pa_table p1 = pa_table p) by (unfold p1; destruct (none cs); reflexivity).
  set (n := generate_name _ _ _). intro H. unfold get_or_create_index in H.
  change (pa_cache (locate n p1)) with (pa_cache p1) in H. change (pa_table (locate n p1)) with (pa_table p1) in H.
  destruct (get_or_create ix_ignore _ (tb_indexes (pa_table p1)) _) as [[[l e] i]| |]; cbn [bindr] in H; try discriminate.
  injection H as <-.
  assert (Q : forall ms q, tb_constraints (pa_table (fold_left (index_sub d i) ms q)) = tb_constraints (pa_table q)).
  { induction ms as [|x ms IH]; intro q; [reflexivity|]. cbn. rewrite IH. unfold index_sub.
    destruct (excluded d x); [reflexivity|]. destruct (beqb (m_name x) (B"unique")); [reflexivity|].
    destruct (beqb (m_name x) (B"using")); [destruct d; reflexivity|reflexivity]. }
  rewrite Q. cbn. rewrite E1. reflexivity.
Qed.

Lemma foreign_sub_effect : forall d own columns i p m p', foreign_sub d own columns i p m = Ok p' -> columns <> [] ->
  exists f, tb_constraints (pa_table p') = change_nth i f (tb_constraints (pa_table p))
    /\ (forall a, con_type (f a) = con_type a)
    /\ (forall a, con_refcolumns a <> [] -> con_refcolumns (f a) <> [])
    /\ (own = true -> m_name m = B"references" -> excluded d m = false -> forall a, con_refcolumns (f a) <> []).
Proof.
  intros d own columns i p m p' H N. unfold foreign_sub in H.
  assert (Stay : forall q, tb_constraints (pa_table q) = tb_constraints (pa_table p) ->
     (excluded d m = true \/ own && beqb (m_name m) (B"references") = false) -> 
     exists f, tb_constraints (pa_table q) = change_nth i f (tb_constraints (pa_table p))
    /\ (forall a, con_type (f a) = con_type a)
    /\ (forall a, con_refcolumns a <> [] -> con_refcolumns (f a) <> [])
    /\ (own = true -> m_name m = B"references" -> excluded d m = false -> forall a, con_refcolumns (f a) <> [])).
  { intros q E O. exists (fun a => a). rewrite change_nth_id. repeat split; auto.
    intros -> Em Ex. rewrite Em, Ex, beqb_refl in O. destruct O; discriminate. }
  destruct (excluded d m) eqn:Ex; [injection H as <-; apply Stay; auto|].
  destruct (own && beqb (m_name m) (B"references")) eqn:Er.
  { injection H as <-. exists (set_reference columns (m_raw m)). split; [reflexivity|].
    split; [intro a; apply set_reference_same|]. split; intros; apply set_reference_cols; exact N. }
  assert (Set_ : forall f, (forall a, con_type (f a) = con_type a) -> (forall a, con_refcolumns (f a) = con_refcolumns a) ->
     exists f', tb_constraints (pa_table (on_constraints i f p)) = change_nth i f' (tb_constraints (pa_table p))
    /\ (forall a, con_type (f' a) = con_type a)
    /\ (forall a, con_refcolumns a <> [] -> con_refcolumns (f' a) <> [])
    /\ (own = true -> m_name m = B"references" -> false = false -> forall a, con_refcolumns (f' a) <> [])).
  { intros f T R. exists f. split; [reflexivity|]. split; [exact T|]. split; [intros a Ha; rewrite R; exact Ha|].
    intros -> Em. rewrite Em, beqb_refl in Er. discriminate. }
  destruct (beqb (m_name m) (B"onupdate")).
  { destruct (rule_of d (m_raw m)); injection H as <-; [apply Set_; reflexivity|apply Stay; auto]. }
  destruct (beqb (m_name m) (B"ondelete")).
  { destruct (rule_of d (m_raw m)); injection H as <-; [apply Set_; reflexivity|apply Stay; auto]. }
  destruct (beqb (m_name m) (B"deferrable")).
  { destruct (may_defer d); injection H as <-; [apply Set_; reflexivity|apply Stay; auto]. }
  destruct (beqb (m_name m) (B"deferred")).
  { destruct (may_defer d); injection H as <-; [apply Set_; reflexivity|apply Stay; auto]. }
  destruct (beqb (m_name m) (B"index")).
  { apply Stay; auto. eapply parse_index_constraints. exact H. }
  injection H as <-. apply Stay; auto.
Qed.

Lemma foreign_subs_effect : forall d own columns i ms p p', foldr (foreign_sub d own columns i) p ms = Ok p' -> columns <> [] ->
  exists f, tb_constraints (pa_table p') = change_nth i f (tb_constraints (pa_table p))
    /\ (forall a, con_type (f a) = con_type a)
    /\ (forall a, con_refcolumns a <> [] -> con_refcolumns (f a) <> [])
    /\ (own = true -> (exists m, In m ms /\ m_name m = B"references" /\ excluded d m = false) -> forall a, con_refcolumns (f a) <> []).
Proof.
  intros d own columns i. induction ms as [|m ms IH]; intros p p' H N; cbn in H.
  { injection H as <-. exists (fun a => a). rewrite change_nth_id. repeat split; auto. intros _ (m & [] & _). }
  destruct (foreign_sub d own columns i p m) as [p1| |] eqn:E1; cbn [bindr] in H; try discriminate.
  destruct (foreign_sub_effect _ _ _ _ _ _ _ E1 N) as (f & F1 & F2 & F3 & F4).
  destruct (IH p1 p' H N) as (g & G1 & G2 & G3 & G4). exists (fun a => g (f a)). split; [rewrite G1, F1, change_change; reflexivity|].
  split; [intro a; rewrite G2, F2; reflexivity|]. split; [intros a Ha; apply G3, F3; exact Ha|].
  intros O (x & [<-|Hx] & Nx & Ex) a; [apply G3, F4; assumption|]. apply G4; eauto.
Qed.

(** ** Foreign keys have references *)
Definition cited (p : parser) : Prop :=
  forall j x, nth_error (tb_constraints (pa_table p)) j = Some x -> con_type x = FOREIGN_KEY -> con_refcolumns x <> [].

(** A modifier for a foreign key that names what is referenced. *)
Definition cites (d : dialect) (m : modifier) : Prop :=
  m_name m = B"foreignkey" ->
  forall m', parsed_value m = Ok m' -> m_subs m' <> [] ->
    exists r, In r (m_subs m') /\ m_name r = B"references" /\ excluded d r = false.

Lemma cited_change : forall l i f l', l' = change_nth i f l ->
  (forall a, con_type (f a) = con_type a) -> (forall a, con_refcolumns a <> [] -> con_refcolumns (f a) <> []) ->
  (forall j x, nth_error l j = Some x -> con_type x = FOREIGN_KEY -> con_refcolumns x <> []) ->
  forall j x, nth_error l' j = Some x -> con_type x = FOREIGN_KEY -> con_refcolumns x <> [].
Proof.
  intros l i f l' -> T R C j x Hx Tx. destruct (change_nth_cases _ _ _ _ _ Hx) as (a & Ha & [->|(_ & ->)]); [eauto|].
  apply R. apply (C j); [exact Ha|]. rewrite <- T. exact Tx.
Qed.

Lemma cited_created : forall p n ty cols t c i f, n <> [] -> pinv (pa_cache p) (pa_table p) -> cited p ->
  get_or_create_constraint (pa_cache p) (pa_table p) n ty cols = Ok (t, c, i) ->
  (forall a, con_type (f a) = con_type a) ->
  (forall a, con_refcolumns a <> [] -> con_refcolumns (f a) <> []) ->
  (ty = FOREIGN_KEY -> forall a, con_refcolumns (f a) <> []) ->
  forall j x, nth_error (change_nth i f (tb_constraints t)) j = Some x -> con_type x = FOREIGN_KEY -> con_refcolumns x <> [].
Proof.
  intros p n ty cols t c i f Ne I C R T F1 F2 j x Hx Tx.
  destruct (constraint_created true p n ty cols Ne I) as (t' & c' & i' & R' & _ & _ & [E|(E & Ei)] & _); rewrite R in R'; injection R' as <- <- <-.
  - eapply cited_change; [reflexivity| | |exact C|rewrite E in Hx; exact Hx|exact Tx]; assumption.
  - rewrite E in Hx. destruct (change_nth_cases _ _ _ _ _ Hx) as (a & Ha & [->|(-> & ->)]).
    + destruct (nth_snoc _ _ _ _ Ha) as [(L & Ha')|(L & ->)]; [apply (C j); assumption|].
      assert (Q : nth_error (change_nth i f (tb_constraints (pa_table p) ++ [new_constraint (pa_table p) n ty cols])) j
                  = Some (f (new_constraint (pa_table p) n ty cols))).
      { subst j. rewrite <- Ei. rewrite Ei. apply change_nth_at. apply nth_last. }
      rewrite Q in Hx. injection Hx as Hx. rewrite <- Hx. apply F2. exact Tx.
    + destruct (nth_snoc _ _ _ _ Ha) as [(L & Ha')|(L & ->)]; [lia|]. apply F2. rewrite T in Tx. exact Tx.
Qed.

Lemma key_subs_effect : forall d i ms p, exists f, 
  tb_constraints (pa_table (fold_left (key_sub d i) ms p)) = change_nth i f (tb_constraints (pa_table p))
  /\ (forall a, con_type (f a) = con_type a) /\ (forall a, con_refcolumns (f a) = con_refcolumns a).
Proof.
  intros d i. induction ms as [|m ms IH]; intro p; [exists (fun a => a); rewrite change_nth_id; auto|].
  cbn. destruct (IH (key_sub d i p m)) as (g & G1 & G2 & G3).
  assert (S : exists f, tb_constraints (pa_table (key_sub d i p m)) = change_nth i f (tb_constraints (pa_table p))
     /\ (forall a, con_type (f a) = con_type a) /\ (forall a, con_refcolumns (f a) = con_refcolumns a)).
  { assert (Stay : exists f, tb_constraints (pa_table p) = change_nth i f (tb_constraints (pa_table p))
     /\ (forall a, con_type (f a) = con_type a) /\ (forall a, con_refcolumns (f a) = con_refcolumns a))
      by (exists (fun a => a); rewrite change_nth_id; auto).
    unfold key_sub. destruct (excluded d m); [exact Stay|]. destruct (beqb (m_name m) (B"deferrable")).
    { destruct (may_defer d); [eexists; split; [reflexivity|]; split; intro; reflexivity|exact Stay]. }
    destruct (beqb (m_name m) (B"deferred")); [|exact Stay].
    destruct (may_defer d); [eexists; split; [reflexivity|]; split; intro; reflexivity|exact Stay]. }
  destruct S as (f & F1 & F2 & F3). exists (fun a => g (f a)). rewrite G1, F1, change_change. split; [reflexivity|].
  split; intro a; [rewrite G2, F2|rewrite G3, F3]; reflexivity.
Qed.

Lemma parse_key_cited : forall d cols p m p', pinv (pa_cache p) (pa_table p) -> cited p -> parse_key d cols p m = Ok p' -> cited p'.
Proof.
  intros d cols p m p' I C H. unfold parse_key in H. destruct (parsed_value m) as [m'| |]; try discriminate.
  2:{ injection H as <-. exact C. }
  cbv zeta in H. revert H. set (cs := if own_value (m_value m') then _ else _).
  set (p1 := if none cs then _ else _). assert (E1 : pa_table p1 = pa_table p) by (unfold p1; destruct (none cs); reflexivity).
  assert (E2 : pa_cache p1 = pa_cache p) by (unfold p1; destruct (none cs); reflexivity).
  match goal with |- context [locate ?x p1] => set (n := x) end.
  assert (Ne : n <> []) by (unfold n; destruct d, (equal_fold UNIQUE (m_name m')); (apply generated_nonempty; discriminate) || discriminate).
  change (pa_cache (locate n p1)) with (pa_cache p1). change (pa_table (locate n p1)) with (pa_table p1). rewrite E1, E2.
  set (ty := if equal_fold UNIQUE (m_name m') then UNIQUE else PRIMARY_KEY). intro H.
  destruct (get_or_create_constraint (pa_cache p) (pa_table p) n ty cs) as [[[t c] i]| |] eqn:R; cbn [bindr] in H; try discriminate.
  injection H as <-. unfold cited. destruct (key_subs_effect d i (m_subs m') (on_constraints i (with_con_ignore (excluded d m')) (with_table t c (locate n p1)))) as (f & F1 & F2 & F3).
  rewrite F1. cbn [on_constraints pa_table with_table with_constraints tb_constraints]. rewrite change_change.
  apply (cited_created p n ty cs t c i); auto.
  - intro a. rewrite F2. reflexivity.
  - intros a Ha. rewrite F3. exact Ha.
  - unfold ty. destruct (equal_fold UNIQUE (m_name m')); discriminate.
Qed.

Lemma parse_foreign_key_cited : forall d p m p', pinv (pa_cache p) (pa_table p) -> cited p -> m_name m = B"foreignkey" -> cites d m ->
  parse_foreign_key d p m = Ok p' -> cited p'.
Proof.
  intros d p m p' I C Nm Ci H. unfold parse_foreign_key in H. specialize (Ci Nm). destruct (parsed_value m) as [m'| |]; try discriminate.
  2:{ injection H as <-. exact C. }
  destruct (negb (own_value (m_value m'))); [injection H as <-; exact C|].
  destruct (m_subs m') as [|m1 ms] eqn:Em; [injection H as <-; exact C|]. cbn [none] in H. cbv zeta in H. revert H.
  set (cs := split_byte _ _). set (n := generate_name _ _ _).
  change (pa_cache (locate n p)) with (pa_cache p). change (pa_table (locate n p)) with (pa_table p). intro H.
  destruct (get_or_create_constraint (pa_cache p) (pa_table p) n FOREIGN_KEY cs) as [[[t c] i]| |] eqn:R; cbn [bindr] in H; try discriminate.
  destruct (foreign_subs_effect _ _ _ _ _ _ _ H) as (f & F1 & F2 & F3 & F4); [apply split_byte_cons|].
  unfold cited. rewrite F1. cbn [on_constraints pa_table with_table with_constraints tb_constraints]. rewrite change_change.
  apply (cited_created p n FOREIGN_KEY cs t c i); auto.
  - apply generated_nonempty. discriminate.
  - intro a. rewrite F2. reflexivity.
  - intros _ a. apply F4; [reflexivity|]. rewrite <- Em. apply (Ci m' eq_refl). rewrite Em. discriminate.
Qed.

Lemma parse_references_cited : forall d n0 p m p', pinv (pa_cache p) (pa_table p) -> cited p ->
  parse_references d n0 p m = Ok p' -> cited p'.
Proof.
  intros d n0 p m p' I C H. unfold parse_references in H. destruct (parsed_value m) as [m'| |]; try discriminate.
  2:{ injection H as <-. exact C. }
  cbv zeta in H. revert H. set (p1 := if is_empty n0 then _ else _).
  assert (E1 : pa_table p1 = pa_table p) by (unfold p1; destruct (is_empty n0); reflexivity).
  assert (E2 : pa_cache p1 = pa_cache p) by (unfold p1; destruct (is_empty n0); reflexivity).
  set (n := generate_name _ _ _).
  change (pa_cache (locate n p1)) with (pa_cache p1). change (pa_table (locate n p1)) with (pa_table p1). rewrite E1, E2. intro H.
  destruct (get_or_create_constraint (pa_cache p) (pa_table p) n FOREIGN_KEY [n0]) as [[[t c] i]| |] eqn:R; cbn [bindr] in H; try discriminate.
  destruct (foreign_subs_effect _ _ _ _ _ _ _ H) as (f & F1 & F2 & F3 & F4); [discriminate|].
  unfold cited. rewrite F1. cbn [on_constraints pa_table with_table with_constraints tb_constraints]. rewrite !change_change.
  apply (cited_created p n FOREIGN_KEY [n0] t c i); auto.
  - apply generated_nonempty. discriminate.
  - intro a. rewrite F2. etransitivity; [apply set_reference_same|reflexivity].
  - intros a Ha. apply F3. apply set_reference_cols. discriminate.
  - intros _ a. apply F3. apply set_reference_cols. discriminate.
Qed.

Lemma cited_same : forall p p', cited p -> tb_constraints (pa_table p') = tb_constraints (pa_table p) -> cited p'.
Proof. intros p p' C E. unfold cited. rewrite E. exact C. Qed.

Lemma column_modifier_cited : forall flt d n i p ds m p' ds', pinv (pa_cache p) (pa_table p) -> cited p -> cites d m ->
  column_modifier flt d n i (p, ds) m = Ok (p', ds') -> cited p'.
Proof.
  intros flt d n i p ds m p' ds' I C Ci H. unfold column_modifier in H. revert H.
  set (m' := if none (m_dialects m) then _ else m).
  assert (Cm : cites d m').
  { unfold m'. destruct (none (m_dialects m)); [|exact Ci]. intros Nm x Hx Sx. cbn in Nm.
    unfold parsed_value, parse_raw_value in Hx. cbn [m_raw m_dialects m_name] in Hx.
    unfold cites, parsed_value, parse_raw_value in Ci. specialize (Ci Nm).
    destruct (m_raw m) as [|c raw].
    - injection Hx as <-. cbn in *. exact (Ci m eq_refl Sx).
    - destruct (pop_value (c :: raw)) as [[v r]| |]; try discriminate.
      destruct (new_modifiers r) as [[subs| |]|]; try discriminate. injection Hx as <-. cbn in *.
      exact (Ci _ eq_refl Sx). }
  clearbody m'. intro H.
  destruct (excluded d m'); [injection H as <- _; exact C|].
  destruct (beqb (m_name m') (B"type")).
  { destruct (nth_error _ i); [|discriminate]. destruct (set_type _ _ _); cbn [bindr] in H; try discriminate.
    injection H as <- _. exact C. }
  Ltac same C H := injection H as <- _; exact C.
  destruct (beqb (m_name m') (B"len")); [same C H|].
  destruct (beqb (m_name m') (B"auto_increment")); [destruct d; same C H|].
  destruct (beqb (m_name m') (B"autoincrement")); [destruct d; same C H|].
  destruct (beqb (m_name m') (B"identity")); [destruct d; same C H|].
  destruct (beqb (m_name m') (B"alwaysidentity")); [destruct d; same C H|].
  destruct (beqb (m_name m') (B"notnull")); [same C H|].
  destruct (beqb (m_name m') (B"onupdatecurrenttimestamp")); [destruct d; same C H|].
  destruct (beqb (m_name m') (B"collate")); [same C H|].
  destruct (beqb (m_name m') (B"default")); [same C H|].
  destruct (beqb (m_name m') (B"generated")); [same C H|].
  destruct (beqb (m_name m') (B"dialect")); [destruct (is_empty (m_raw m')); same C H|].
  destruct (beqb (m_name m') (B"index")).
  { destruct (parse_index d [n] p m') as [p1| |] eqn:E; cbn [bindr] in H; try discriminate. injection H as <- _.
    eapply cited_same; [exact C|]. eapply parse_index_constraints. exact E. }
  destruct (beqb (m_name m') (B"primarykey") || beqb (m_name m') (B"unique")).
  { destruct (parse_key d [n] p m') as [p1| |] eqn:E; cbn [bindr] in H; try discriminate. injection H as <- _.
    eapply parse_key_cited; eassumption. }
  destruct (beqb_spec (m_name m') (B"foreignkey")) as [Nf|_].
  { destruct (parse_foreign_key d p m') as [p1| |] eqn:E; cbn [bindr] in H; try discriminate. injection H as <- _.
    eapply parse_foreign_key_cited; eassumption. }
  destruct (beqb (m_name m') (B"references")); [|same C H].
  destruct (parse_references d n p m') as [p1| |] eqn:E; cbn [bindr] in H; try discriminate. injection H as <- _.
  eapply parse_references_cited; eassumption.
Qed.

Lemma cites_dialects : forall d m ds, cites d m -> cites d (Mod ds (m_name m) (m_raw m) (m_value m) (m_subs m)).
Proof.
  intros d m ds Ci Nm x Hx Sx. cbn in Nm. unfold parsed_value, parse_raw_value in Hx. cbn [m_raw m_dialects m_name] in Hx.
  unfold cites, parsed_value, parse_raw_value in Ci. specialize (Ci Nm).
  destruct (m_raw m) as [|c raw].
  - injection Hx as <-. cbn in *. exact (Ci m eq_refl Sx).
  - destruct (pop_value (c :: raw)) as [[v r]| |]; try discriminate.
    destruct (new_modifiers r) as [[subs| |]|]; try discriminate. injection Hx as <-. cbn in *.
    exact (Ci _ eq_refl Sx).
Qed.

Lemma table_modifier_cited : forall d p ds m p' ds', pinv (pa_cache p) (pa_table p) -> cited p -> cites d m ->
  table_modifier d (p, ds) m = Ok (p', ds') -> cited p'.
Proof.
  intros d p ds m p' ds' I C Ci H. unfold table_modifier in H. revert H.
  set (m' := if none (m_dialects m) then _ else m).
  assert (Cm : cites d m') by (unfold m'; destruct (none (m_dialects m)); [apply cites_dialects|]; exact Ci).
  clearbody m'. intro H.
  destruct (beqb (m_name m') (B"dialect")); [destruct (is_empty (m_raw m')); same C H|].
  destruct (beqb (m_name m') (B"index")).
  { destruct (parse_index d [] p m') as [p1| |] eqn:E; cbn [bindr] in H; try discriminate. injection H as <- _.
    eapply cited_same; [exact C|]. eapply parse_index_constraints. exact E. }
  destruct (beqb (m_name m') (B"primarykey") || beqb (m_name m') (B"unique")).
  { destruct (parse_key d [] p m') as [p1| |] eqn:E; cbn [bindr] in H; try discriminate. injection H as <- _.
    eapply parse_key_cited; eassumption. }
  destruct (beqb_spec (m_name m') (B"foreignkey")) as [Nf|_].
  { destruct (parse_foreign_key d p m') as [p1| |] eqn:E; cbn [bindr] in H; try discriminate. injection H as <- _.
    eapply parse_foreign_key_cited; eassumption. }
  destruct (beqb (m_name m') (B"virtual")); [destruct d; same C H|same C H].
Qed.

Definition cites_field (d : dialect) (f : field) : Prop := Forall (cites d) (f_mods f).

Lemma parse_column_cited : forall flt d n ty p ms p', pinv (pa_cache p) (pa_table p) -> cited p -> Forall (cites d) ms ->
  parse_column flt d n ty p ms = Ok p' -> cited p'.
Proof.
  intros flt d n ty p ms p' I C F H. unfold parse_column in H.
  destruct (column_created p n ty I) as (t & c & i & a & R & S & M & Ha & Na & Ec & Ei). rewrite R in H. cbn [bindr] in H.
  set (p1 := with_table t c p) in *. assert (I1 : pinv (pa_cache p1) (pa_table p1)) by apply S.
  pose proof (step_columns true p1 i (with_enum (beqb ty (B"sq.EnumField"))) I1 (fun _ => eq_refl) (fun _ => eq_refl)) as S1.
  set (p2 := on_columns i (with_enum (beqb ty (B"sq.EnumField"))) p1) in *.
  assert (C2 : cited p2) by (eapply cited_same; [exact C|exact Ec]).
  assert (M2 : ca_columns (pa_cache p2) [tb_schema (pa_table p2); tb_name (pa_table p2); n] = Some i) by exact M.
  pose proof (s_inv _ _ _ S1) as I2. revert H. generalize (@nil bytes) as ds. clear S1 S Ha. clearbody p2. clear p1 I1.
  revert p2 I2 C2 M2. induction F as [|m ms Cm F IH]; intros p2 I2 C2 M2 ds H; cbn [foldr] in H.
  - injection H as <-. exact C2.
  - destruct (proj1 (proj1 I2) _ _ M2) as (a2 & Ha2 & _).
    pose proof (column_modifier_step flt d n i p2 ds m a2 I2 M2 Ha2) as S.
    destruct (column_modifier flt d n i (p2, ds) m) as [[p3 ds3]| |] eqn:E; cbn [bindr outcome2] in *; try discriminate.
    eapply (IH p3); [apply S|eapply column_modifier_cited; eassumption| |exact H].
    rewrite (s_schema _ _ _ S), (s_name _ _ _ S), (s_columns _ _ _ S eq_refl). exact M2.
Qed.

Lemma parse_table_cited : forall d p ms p', pinv (pa_cache p) (pa_table p) -> cited p -> Forall (cites d) ms ->
  parse_table d p ms = Ok p' -> cited p'.
Proof.
  intros d p ms p' I C F H. unfold parse_table in H. revert H. generalize (@nil bytes) as ds. revert p I C.
  induction F as [|m ms Cm F IH]; intros p I C ds H; cbn [foldr] in H; [injection H as <-; exact C|].
  pose proof (table_modifier_step d p ds m I) as S.
  destruct (table_modifier d (p, ds) m) as [[p1 ds1]| |] eqn:E; cbn [bindr outcome2] in *; try discriminate.
  eapply (IH p1); [apply S|eapply table_modifier_cited; eassumption|exact H].
Qed.

Lemma parse_field_cited : forall flt d p f p', pinv (pa_cache p) (pa_table p) -> cited p -> cites_field d f ->
  parse_field flt d p f = Ok p' -> cited p'.
Proof.
  intros flt d p f p' I C F H. unfold parse_field in H. destruct (_ || _); [eapply parse_table_cited; eassumption|].
  cbv zeta in H. revert H. set (n := if is_empty (f_tag f) then _ else _). intro H.
  destruct (field_type d (f_type f)) as [[ty len]|]; [|injection H as <-; exact C].
  destruct (is_empty len); [eapply parse_column_cited; eassumption|].
  destruct (column_created p n ty I) as (t & c & i & a & R & S & M & Ha & Na & Ec & Ei). rewrite R in H. cbn [bindr] in H.
  set (p1 := with_table t c p) in *.
  pose proof (step_columns false p1 i (with_length len) (s_inv _ _ _ S) (fun _ => eq_refl) (fun _ => eq_refl)) as S1.
  eapply parse_column_cited; [apply (s_inv _ _ _ S1)| |exact F|exact H]. eapply cited_same; [exact C|exact Ec].
Qed.

Lemma parse_fields_cited : forall flt d l p p', pinv (pa_cache p) (pa_table p) -> cited p -> Forall (cites_field d) l ->
  foldr (parse_field flt d) p l = Ok p' -> cited p'.
Proof.
  intros flt d l p p' I C F. revert p I C. induction F as [|f l Cf F IH]; intros p I C H; cbn [foldr] in H; [injection H as <-; exact C|].
  pose proof (parse_field_step flt d p f I) as S. destruct (parse_field flt d p f) as [p1| |] eqn:E; cbn [bindr outcome] in *; try discriminate.
  eapply (IH p1); [apply S|eapply parse_field_cited; eassumption|exact H].
Qed.

(** ** The statement *)
Definition safe_field (d : dialect) (f : field) : Prop := ~ bad_field f /\ cites_field d f.

Theorem reading_safe : forall flt d cur l,
  NoDup (tables_of cur l) -> Forall (fun s => Forall (safe_field d) (ts_fields s)) l ->
  exists r, parse_structs flt d cur [] l = Ok r.
Proof.
  intros flt d cur l Nd F. unfold parse_structs.
  pose proof (parse_all_ok flt d cur l (Parsing (new_state []) [] [] []) st_ok_empty Nd (fun s t _ sc Hs _ => match Hs with end)) as A.
  destruct (foldr (parse_struct flt d cur) (Parsing (new_state []) [] [] []) l) as [g| |]; cbn [bindr]; [|contradiction|].
  - destruct A as (ts & Fl & R & J).
    destruct (flatr_total (fun sc => flatr (fun t => flatr (check_foreign_key cur g t) (tb_constraints t)) (sc_tables sc)) (st_schemas (pg_state g))) as (cs & E).
    { intros sc _. apply flatr_total. intros t _. apply flatr_total. intros x _.
      destruct (check_foreign_key_ok cur g t x J) as (cs & E & _). eauto. }
    rewrite E. cbn [bindr]. eexists. reflexivity.
  - exfalso. destruct A as (s & first & fields & sn & tn & c & loc & ex & rep & Hs & Ef & Et & Bl & P).
    rewrite Forall_forall in F. specialize (F s Hs).
    pose proof (fill_table_ok flt d (Parser c (fresh_table sn tn) loc ex rep) (ts_fields s) (fresh_pinv c sn tn Bl)) as O.
    rewrite P in O. rewrite Forall_forall in F. destruct O as [O|(p1 & E1 & O)].
    + apply Exists_exists in O as (f & Hf & O). exact (proj1 (F f Hf) O).
    + assert (C : cited p1).
      { apply (parse_fields_cited flt d (ts_fields s) _ _ (fresh_pinv c sn tn Bl : pinv (pa_cache (Parser c (fresh_table sn tn) loc ex rep)) (pa_table (Parser c (fresh_table sn tn) loc ex rep)))); [| |exact E1].
        - intros j x Hx. destruct j; discriminate.
        - apply Forall_forall. intros f Hf. apply (F f Hf). }
      apply Exists_exists in O as (x & Hx & U). apply In_nth_error in Hx as (j & Hj).
      destruct U as (_ & T & R). exact (C j x Hj T R).
Qed.
