(** The reports of ModelMistakes are those of the whole parser in ModelParser. *)
From Verif Require Import GoStr GoStrFacts ModelDdl ModelModifier ModelCatalog ModelCache ModelDiff ModelStructs ModelParser ModelAnnotate ModelMistakes.

Definition adds (p p' : parser) (ns : list note) : Prop := pa_reports p' = pa_reports p ++ map snd ns.
Lemma adds_none p p' : pa_reports p' = pa_reports p -> adds p p' [].
Proof. unfold adds. intros ->. cbn. rewrite app_nil_r. reflexivity. Qed.
Lemma adds_one p k c : adds p (report c p) [(k, c)].
Proof. reflexivity. Qed.
Lemma adds_app p p' p'' ns ns' : adds p p' ns -> adds p' p'' ns' -> adds p p'' (ns ++ ns').
Proof. unfold adds. intros E E'. rewrite E', E, map_app, app_assoc. reflexivity. Qed.
Lemma adds_from p0 p p' ns : pa_reports p0 = pa_reports p -> adds p0 p' ns -> adds p p' ns.
Proof. unfold adds. intros E F. rewrite F, E. reflexivity. Qed.
Lemma fold_adds (f : parser -> modifier -> parser) (g : modifier -> list note) : (forall p m, adds p (f p m) (g m)) ->
  forall l p, adds p (fold_left f l p) (flat_map g l).
Proof. intros H. induction l as [|m l IH]; intros p; cbn [fold_left flat_map]; [apply adds_none; reflexivity|]. eapply adds_app; [apply H|apply IH]. Qed.
Lemma index_sub_adds d i keys p m : adds p (index_sub d i p m) (index_sub_notes d keys m).
Proof.
  unfold index_sub, index_sub_notes. destruct (excluded d m); [apply adds_none; reflexivity|]. destruct (beqb (m_name m) (B"unique")); [apply adds_none; reflexivity|].
  destruct (beqb (m_name m) (B"using")); [apply adds_none; destruct d; reflexivity|]. apply adds_one.
Qed.
Lemma key_sub_adds d i keys p m : adds p (key_sub d i p m) (key_sub_notes d keys m).
Proof.
  unfold key_sub, key_sub_notes. destruct (excluded d m); [apply adds_none; reflexivity|]. destruct (beqb (m_name m) (B"deferrable")); [apply adds_none; destruct d; reflexivity|].
  destruct (beqb (m_name m) (B"deferred")); [apply adds_none; destruct d; reflexivity|]. apply adds_one.
Qed.
Lemma columns_none (b : bool) v columns : none (if b then split_byte ","%char v else columns) = negb b && none columns.
Proof.
  destruct b; [|reflexivity]. cbn [negb andb]. destruct (split_byte ","%char v) eqn:E; [|reflexivity]. exfalso. revert E. destruct v as [|x v]; cbn [split_byte]; [discriminate|]. destruct (ceqb x ","%char); [discriminate|]. destruct (split_byte ","%char v); discriminate.
Qed.
Lemma index_adds d columns keys p m p' : parse_index d columns p m = Ok p' -> adds p p' (index_notes d columns keys m).
Proof.
  unfold parse_index, index_notes. destruct (parsed_value m) as [m'| |]; [|intros E; injection E as <-; apply adds_one|discriminate].
  cbv zeta. rewrite columns_none. set (cs := if own_value _ then _ else _). set (q := if negb _ && _ then report NoColumn p else p).
  assert (Q : adds p q (if negb (own_value (m_value m')) && none columns then [(keys, NoColumn)] else [])).
  { unfold q. destruct (negb _ && none columns); [apply adds_one|apply adds_none; reflexivity]. }
  destruct (get_or_create_index _ _ _ _) as [[[t c] i]| |]; cbn [bindr]; [|discriminate|discriminate]. intros E.
  assert (X : forall a b : parser, Ok a = Ok b -> a = b) by (intros a b Y; injection Y; auto). apply X in E. subst p'.
  eapply adds_app; [exact Q|]. eapply adds_from; [|apply fold_adds; intros; apply index_sub_adds]. reflexivity.
Qed.
Lemma key_adds d columns keys p m p' : parse_key d columns p m = Ok p' -> adds p p' (key_notes d columns keys m).
Proof.
  unfold parse_key, key_notes. destruct (parsed_value m) as [m'| |]; [|intros E; injection E as <-; apply adds_one|discriminate].
  cbv zeta. rewrite columns_none. set (cs := if own_value _ then _ else _). set (q := if negb _ && _ then report NoColumn p else p).
  assert (Q : adds p q (if negb (own_value (m_value m')) && none columns then [(keys, NoColumn)] else [])).
  { unfold q. destruct (negb _ && none columns); [apply adds_one|apply adds_none; reflexivity]. }
  destruct (get_or_create_constraint _ _ _ _ _) as [[[t c] i]| |]; cbn [bindr]; [|discriminate|discriminate]. intros E.
  assert (X : forall a b : parser, Ok a = Ok b -> a = b) by (intros a b Y; injection Y; auto). apply X in E. subst p'.
  eapply adds_app; [exact Q|]. eapply adds_from; [|apply fold_adds; intros; apply key_sub_adds]. reflexivity.
Qed.
Lemma ok_inj {A} (a b : A) : Ok a = Ok b -> a = b.
Proof. intros E. injection E. auto. Qed.
Lemma foreign_step_adds d own columns i keys p m p' : foreign_sub d own columns i p m = Ok p' -> adds p p' (snd (foreign_step d own columns keys m)).
Proof.
  unfold foreign_sub, foreign_step. cbv zeta. destruct (excluded d m); [intros E; apply ok_inj in E; subst; apply adds_none; reflexivity|].
  destruct (own && beqb (m_name m) (B"references")); [intros E; apply ok_inj in E; subst; apply adds_none; reflexivity|].
  destruct (beqb (m_name m) (B"onupdate")); cbn [orb]; [intros E; apply ok_inj in E; subst; destruct (rule_of d (m_raw m)); [apply adds_none; reflexivity|apply adds_one]|].
  destruct (beqb (m_name m) (B"ondelete")); [intros E; apply ok_inj in E; subst; destruct (rule_of d (m_raw m)); [apply adds_none; reflexivity|apply adds_one]|].
  destruct (beqb (m_name m) (B"deferrable")); [intros E; apply ok_inj in E; subst; apply adds_none; destruct d; reflexivity|].
  destruct (beqb (m_name m) (B"deferred")); [intros E; apply ok_inj in E; subst; apply adds_none; destruct d; reflexivity|].
  destruct (beqb (m_name m) (B"index")); [apply index_adds|]. intros E. apply ok_inj in E. subst. apply adds_one.
Qed.
Lemma foreign_subs_adds d own columns i : forall l keys p p', foldr (foreign_sub d own columns i) p l = Ok p' -> adds p p' (foreign_subs d own columns keys l).
Proof.
  induction l as [|m l IH]; intros keys p p'; cbn [foldr foreign_subs]; [intros E; apply ok_inj in E; subst; apply adds_none; reflexivity|].
  destruct (foreign_sub d own columns i p m) as [q| |] eqn:F; cbn [bindr]; [|discriminate|discriminate]. intros E. apply (foreign_step_adds _ _ _ _ keys) in F.
  destruct (foreign_step d own columns keys m) as [keys' ns]. eapply adds_app; [exact F|apply IH; exact E].
Qed.
Lemma foreign_adds d keys p m p' : parse_foreign_key d p m = Ok p' -> adds p p' (foreign_notes d keys m).
Proof.
  unfold parse_foreign_key, foreign_notes. destruct (parsed_value m) as [m'| |]; [|intros E; injection E as <-; apply adds_one|discriminate].
  destruct (negb (own_value (m_value m'))); [intros E; injection E as <-; apply adds_one|]. destruct (none (m_subs m')); [intros E; injection E as <-; apply adds_one|].
  cbv zeta. destruct (get_or_create_constraint _ _ _ _ _) as [[[t c] i]| |]; cbn [bindr]; [|discriminate|discriminate]. intros E.
  apply (foreign_subs_adds _ _ _ _ _ keys) in E. eapply adds_from; [|exact E]. reflexivity.
Qed.
Lemma references_adds d column keys p m p' : parse_references d column p m = Ok p' -> adds p p' (references_notes d column keys m).
Proof.
  unfold parse_references, references_notes. destruct (parsed_value m) as [m'| |]; [|intros E; injection E as <-; apply adds_one|discriminate].
  cbv zeta. set (q := if is_empty column then report NoColumn p else p).
  assert (Q : adds p q (if is_empty column then [(keys, NoColumn)] else [])) by (unfold q; destruct (is_empty column); [apply adds_one|apply adds_none; reflexivity]).
  destruct (get_or_create_constraint _ _ _ _ _) as [[[t c] i]| |]; cbn [bindr]; [|discriminate|discriminate]. intros E.
  apply (foreign_subs_adds _ _ _ _ _ keys) in E. eapply adds_app; [exact Q|]. eapply adds_from; [|exact E]. reflexivity.
Qed.
Definition agree (p p' : parser) (ds' : list bytes) (r : (list bytes * list bytes) * list note) : Prop := adds p p' (snd r) /\ ds' = snd (fst r).
Lemma pair_eq {A C} (a a' : A) (c c' : C) : Ok (a, c) = Ok (a', c') -> a = a' /\ c = c'.
Proof. intros E. injection E. auto. Qed.
Lemma parsed_ok (r : result parser) (ds ds' : list bytes) p' : bindr r (fun p => Ok (p, ds)) = Ok (p', ds') -> r = Ok p' /\ ds' = ds.
Proof. destruct r as [q| |]; cbn [bindr]; [|discriminate|discriminate]. intros E. apply pair_eq in E. destruct E as (-> & ->). auto. Qed.
Lemma column_step_agrees flt d n i keys p ds m p' ds' : column_modifier flt d n i (p, ds) m = Ok (p', ds') -> agree p p' ds' (field_step d (Some n) (keys, ds) m).
Proof.
  unfold column_modifier, field_step. cbv zeta. generalize (if none (m_dialects m) then Mod ds (m_name m) (m_raw m) (m_value m) (m_subs m) else m). clear m. intros m.
  assert (Same : forall q k e, Ok (q, ds) = Ok (p', ds') -> pa_reports q = pa_reports p -> agree p p' ds' ((k, ds), e) \/ e <> []).
  { intros q k e E R. apply pair_eq in E. destruct E as (<- & <-). destruct e; [left|right; discriminate]. split; [apply adds_none; exact R|reflexivity]. }
  assert (S1 : forall q k, Ok (q, ds) = Ok (p', ds') -> pa_reports q = pa_reports p -> agree p p' ds' ((k, ds), [])).
  { intros q k E R. destruct (Same q k [] E R) as [X|X]; [exact X|contradiction]. }
  destruct (excluded d m); [intros E; exact (S1 _ _ E eq_refl)|]. unfold column_words, bmem. cbn [map existsb].
  destruct (beqb (m_name m) (B"type")); cbn [orb].
  { destruct (nth_error _ i) as [c|]; [|discriminate]. destruct (set_type d (m_raw m) c) as [c'| |]; cbn [bindr]; [|discriminate|discriminate]. intros E. exact (S1 _ _ E eq_refl). }
  destruct (beqb (m_name m) (B"len")); cbn [orb]; [intros E; exact (S1 _ _ E eq_refl)|].
  destruct (beqb (m_name m) (B"auto_increment")); cbn [orb]; [destruct d; intros E; exact (S1 _ _ E eq_refl)|].
  destruct (beqb (m_name m) (B"autoincrement")); cbn [orb]; [destruct d; intros E; exact (S1 _ _ E eq_refl)|].
  destruct (beqb (m_name m) (B"identity")); cbn [orb]; [destruct d; intros E; exact (S1 _ _ E eq_refl)|].
  destruct (beqb (m_name m) (B"alwaysidentity")); cbn [orb]; [destruct d; intros E; exact (S1 _ _ E eq_refl)|].
  destruct (beqb (m_name m) (B"notnull")); cbn [orb]; [intros E; exact (S1 _ _ E eq_refl)|].
  destruct (beqb (m_name m) (B"onupdatecurrenttimestamp")); cbn [orb]; [destruct d; intros E; exact (S1 _ _ E eq_refl)|].
  destruct (beqb (m_name m) (B"collate")); cbn [orb]; [intros E; exact (S1 _ _ E eq_refl)|].
  destruct (beqb (m_name m) (B"default")); cbn [orb]; [intros E; exact (S1 _ _ E eq_refl)|].
  destruct (beqb (m_name m) (B"generated")); cbn [orb]; [intros E; exact (S1 _ _ E eq_refl)|].
  destruct (beqb (m_name m) (B"dialect")).
  { destruct (is_empty (m_raw m)); intros E; apply pair_eq in E; destruct E as (<- & <-); (split; [|reflexivity]); [apply adds_one|apply adds_none; reflexivity]. }
  destruct (beqb (m_name m) (B"index")); [intros E; apply parsed_ok in E; destruct E as (E & ->); split; [apply index_adds; exact E|reflexivity]|].
  destruct (beqb (m_name m) (B"primarykey") || beqb (m_name m) (B"unique")); [intros E; apply parsed_ok in E; destruct E as (E & ->); split; [apply key_adds; exact E|reflexivity]|].
  destruct (beqb (m_name m) (B"foreignkey")); [intros E; apply parsed_ok in E; destruct E as (E & ->); split; [apply foreign_adds; exact E|reflexivity]|].
  destruct (beqb (m_name m) (B"references")); [intros E; apply parsed_ok in E; destruct E as (E & ->); split; [apply references_adds; exact E|reflexivity]|].
  intros E. apply pair_eq in E. destruct E as (<- & <-). split; [apply adds_one|reflexivity].
Qed.
Lemma table_step_agrees d keys p ds m p' ds' : table_modifier d (p, ds) m = Ok (p', ds') -> agree p p' ds' (field_step d None (keys, ds) m).
Proof.
  unfold table_modifier, field_step. cbv zeta. generalize (if none (m_dialects m) then Mod ds (m_name m) (m_raw m) (m_value m) (m_subs m) else m). clear m. intros m.
  destruct (beqb_spec (m_name m) (B"virtual")) as [V|V].
  - rewrite V. cbn [beqb]. change (beqb (B"virtual") (B"dialect")) with false. change (beqb (B"virtual") (B"index")) with false. change (beqb (B"virtual") (B"primarykey")) with false.
    change (beqb (B"virtual") (B"unique")) with false. change (beqb (B"virtual") (B"foreignkey")) with false. change (beqb (B"virtual") (B"virtual")) with true. cbv beta iota. cbn [orb].
    destruct d; intros E; apply pair_eq in E; destruct E as (<- & <-); (split; [apply adds_none; reflexivity|reflexivity]).
  - destruct (beqb (m_name m) (B"dialect")).
    { destruct (is_empty (m_raw m)); intros E; apply pair_eq in E; destruct E as (<- & <-); (split; [|reflexivity]); [apply adds_one|apply adds_none; reflexivity]. }
    destruct (beqb (m_name m) (B"index")); [intros E; apply parsed_ok in E; destruct E as (E & ->); split; [apply index_adds; exact E|reflexivity]|].
    destruct (beqb (m_name m) (B"primarykey") || beqb (m_name m) (B"unique")); [intros E; apply parsed_ok in E; destruct E as (E & ->); split; [apply key_adds; exact E|reflexivity]|].
    destruct (beqb (m_name m) (B"foreignkey")); [intros E; apply parsed_ok in E; destruct E as (E & ->); split; [apply foreign_adds; exact E|reflexivity]|].
    intros E. apply pair_eq in E. destruct E as (<- & <-). split; [apply adds_one|reflexivity].
Qed.
Lemma fields_adds (f : parser * list bytes -> modifier -> result (parser * list bytes)) d column :
  (forall keys p ds m p' ds', f (p, ds) m = Ok (p', ds') -> agree p p' ds' (field_step d column (keys, ds) m)) ->
  forall l keys p ds p' ds', foldr f (p, ds) l = Ok (p', ds') -> adds p p' (field_notes d column (keys, ds) l).
Proof.
  intros H. induction l as [|m l IH]; intros keys p ds p' ds'; cbn [foldr field_notes]; [intros E; apply pair_eq in E; destruct E as (<- & _); apply adds_none; reflexivity|].
  destruct (f (p, ds) m) as [[q es]| |] eqn:F; cbn [bindr]; [|discriminate|discriminate]. intros E. apply (H keys) in F. destruct F as (A & D).
  destruct (field_step d column (keys, ds) m) as [[keys' ds1] ns]. cbn [fst snd] in A, D. subst ds1. eapply adds_app; [exact A|eapply IH; exact E].
Qed.
Lemma column_reports flt d n ty p ms p' : parse_column flt d n ty p ms = Ok p' -> pa_reports p' = pa_reports p ++ map snd (tag_notes d (Some n) ms).
Proof.
  unfold parse_column. destruct (get_or_create_column _ _ _ _) as [[[t c] i]| |]; cbn [bindr]; [|discriminate|discriminate].
  destruct (foldr _ _ ms) as [[q ds]| |] eqn:F; cbn [bindr]; [|discriminate|discriminate]. intros E. apply ok_inj in E. subst q.
  apply (fields_adds _ d (Some n)) with (keys := []) in F; [|intros; eapply column_step_agrees; eassumption]. exact F.
Qed.
Lemma table_reports d p ms p' : parse_table d p ms = Ok p' -> pa_reports p' = pa_reports p ++ map snd (tag_notes d None ms).
Proof.
  unfold parse_table. destruct (foldr _ _ ms) as [[q ds]| |] eqn:F; cbn [bindr]; [|discriminate|discriminate]. intros E. apply ok_inj in E. subst q.
  apply (fields_adds _ d None) with (keys := []) in F; [|intros; eapply table_step_agrees; eassumption]. exact F.
Qed.
