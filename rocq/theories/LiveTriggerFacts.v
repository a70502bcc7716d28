(** Proofs about reading triggers. *)
From Verif Require Import GoStr GoStrFacts SpecCsv ModelCatalog ModelWipe ModelTriggers ModelIntrospect SpecLive IntrospectFacts IntrospectDb ExtrasFacts ModelLiveTriggers SpecLiveTriggers.

(** ** Triggers are attached to their tables and views *)
Definition matches (s n : bytes) (v : bool) (t : found_trigger) : bool := beqb (ft_schema t) s && beqb (ft_table t) n && Bool.eqb (ft_view t) v.
Definition gathered (rows : list found_trigger) (s n : bytes) (v : bool) (l : list found_trigger) : list found_trigger :=
  fold_left put_trigger (filter (matches s n v) rows) l.
Definition filled (rows : list found_trigger) (h : hall) : hall :=
  Hall (ha_name h) (map (fun x => (fst x, gathered rows (ha_name h) (fst x) false (snd x))) (ha_tables h))
    (map (fun x => (fst x, gathered rows (ha_name h) (fst x) true (snd x))) (ha_views h)).
Definition each_once (cat : list hall) : Prop :=
  NoDup (map ha_name cat) /\ forall h, In h cat -> NoDup (map fst (ha_tables h)) /\ NoDup (map fst (ha_views h)).
Lemma same_list {A} (g : A -> A) l : (forall x, In x l -> g x = x) -> map g l = l.
Proof. induction l as [|a l IH]; intros H; [reflexivity|]. cbn [map]. rewrite (H a (or_introl eq_refl)), IH; [reflexivity|]. intros x I. apply H. right. exact I. Qed.
Lemma put_at_map l n t : NoDup (map fst l) -> put_at l n t = map (fun x => (fst x, if beqb n (fst x) then put_trigger (snd x) t else snd x)) l.
Proof.
  induction l as [|p l IH]; intros Nd; [reflexivity|]. cbn [map] in Nd. inversion Nd as [|? ? Np Nd']; subst. cbn [put_at map]. destruct (beqb_spec (fst p) n) as [E|E].
  - subst n. rewrite beqb_refl. f_equal. symmetry. apply same_list. intros x I. destruct (beqb_spec (fst p) (fst x)) as [E|E]; [|destruct x; reflexivity]. exfalso. apply Np. rewrite E. apply in_map, I.
  - destruct (beqb_spec n (fst p)) as [E'|E']; [congruence|]. rewrite (IH Nd'). destruct p; reflexivity.
Qed.
Lemma filled_none h : filled [] h = h.
Proof. destruct h as [n a b]. unfold filled. cbn. f_equal; apply same_list; intros [] _; reflexivity. Qed.
Lemma not_matching s t h : ft_schema t <> s -> ha_name h = s -> filled [t] h = h.
Proof.
  intros N E. rewrite <- (filled_none h) at 2. unfold filled, gathered. cbn [filter]. assert (M : forall n v, matches (ha_name h) n v t = false).
  { intros n v. unfold matches. destruct (beqb_spec (ft_schema t) (ha_name h)); [congruence|reflexivity]. }
  f_equal; apply map_ext; intros x; rewrite M; reflexivity.
Qed.
Lemma attach_one cat t : each_once cat -> attach_trigger cat t = map (filled [t]) cat.
Proof.
  intros (Nd & E1). induction cat as [|h cat IH]; [reflexivity|]. cbn [map] in Nd. inversion Nd as [|? ? Nh Nd']; subst. cbn [attach_trigger map].
  destruct (beqb_spec (ha_name h) (ft_schema t)) as [E|E].
  - assert (R : map (filled [t]) cat = cat). { apply same_list. intros x I. apply (not_matching (ha_name x)); [|reflexivity]. intros Z. apply Nh. rewrite E, Z. apply in_map, I. }
    rewrite R. f_equal. destruct (E1 h (or_introl eq_refl)) as [N1 N2]. unfold filled, gathered. cbn [filter]. unfold matches. rewrite <- E, beqb_refl. cbn [andb].
    destruct (ft_view t).
    + f_equal; [|rewrite put_at_map by exact N2; apply map_ext; intros x; rewrite andb_true_r; destruct (beqb _ _); reflexivity].
      symmetry. apply same_list. intros x _. rewrite andb_false_r. destruct x; reflexivity.
    + f_equal; [rewrite put_at_map by exact N1; apply map_ext; intros x; rewrite andb_true_r; destruct (beqb _ _); reflexivity|].
      symmetry. apply same_list. intros x _. rewrite andb_false_r. destruct x; reflexivity.
  - rewrite (not_matching (ha_name h) t h) by congruence. f_equal. apply IH; [exact Nd'|]. intros x I. apply E1. right. exact I.
Qed.
Lemma filled_names rows cat : map ha_name (map (filled rows) cat) = map ha_name cat.
Proof. rewrite map_map. reflexivity. Qed.
Lemma filled_once rows cat : each_once cat -> each_once (map (filled rows) cat).
Proof.
  intros (Nd & E1). split; [rewrite filled_names; exact Nd|]. intros h I. apply in_map_iff in I as (x & <- & I). destruct (E1 x I) as [N1 N2].
  unfold filled. cbn [ha_tables ha_views]. rewrite !map_map. split; assumption.
Qed.
Lemma filled_app r1 r2 h : filled r2 (filled r1 h) = filled (r1 ++ r2) h.
Proof.
  unfold filled, gathered. cbn [ha_name ha_tables ha_views]. rewrite !map_map. f_equal; apply map_ext; intros x; cbn [fst snd]; rewrite filter_app, fold_left_app; reflexivity.
Qed.
Lemma attach_all rows : forall cat, each_once cat -> fold_left attach_trigger rows cat = map (filled rows) cat.
Proof.
  induction rows as [|t rows IH]; intros cat E1.
  - cbn [fold_left]. symmetry. apply same_list. intros h _. apply filled_none.
  - cbn [fold_left]. rewrite (attach_one cat t E1). rewrite IH by (apply filled_once, E1). rewrite map_map. apply map_ext. intros h. apply (filled_app [t] rows).
Qed.
Lemma put_new l t : ~ In (ft_name t) (map ft_name l) -> put_trigger l t = l ++ [t].
Proof.
  induction l as [|u l IH]; intros N; [reflexivity|]. cbn [put_trigger map app]. destruct (beqb_spec (ft_name u) (ft_name t)) as [E|E].
  - exfalso. apply N. left. exact E.
  - f_equal. apply IH. intros I. apply N. right. exact I.
Qed.
Lemma put_all rows : forall l, NoDup (map ft_name (l ++ rows)) -> fold_left put_trigger rows l = l ++ rows.
Proof.
  induction rows as [|t rows IH]; intros l Nd; [symmetry; apply app_nil_r|]. cbn [fold_left]. rewrite put_new.
  - rewrite IH by (rewrite <- app_assoc; exact Nd). rewrite <- app_assoc. reflexivity.
  - intros I. rewrite map_app in Nd. cbn [map] in Nd. apply NoDup_remove in Nd as [_ Nd]. apply Nd. apply in_or_app. left. exact I.
Qed.

(** ** Rows *)
(** The row of a trigger whose text can be seen. *)
Definition found_rows (d : dialect) (s : bytes) (o : owner) (t : live_trigger) : list found_trigger :=
  let q := match lt_sql t with Some q => q | None => [] end in
  match d with
  | SQLite => [FoundTrigger [] (lt_on t) (lt_name t) false (unix_lines (q ++ B";")) [] []]
  | Postgres => if lt_internal t then [] else map (fun c => FoundTrigger s (ow_name o) (lt_name t) (ow_view o) (unix_lines (q ++ B";")) [] c) (descriptions t)
  | SQLServer => [FoundTrigger s (ow_name o) (lt_name t) (ow_view o) (unix_lines q) [] []]
  | MySQL => [FoundTrigger s (ow_name o) (lt_name t) false (unix_lines q) [(B"actionTiming", lt_timing t); (B"eventManipulation", lt_event t)] []]
  | Other => []
  end.
Lemma found_rows_ok d s o t : lt_sql t <> None -> trigger_rows d s o t = map Ok (found_rows d s o t).
Proof.
  intros N. unfold trigger_rows, found_rows. destruct (lt_sql t) as [q|]; [|contradiction]. destruct d; try reflexivity. destruct (lt_internal t); [reflexivity|]. rewrite map_map. reflexivity.
Qed.
Definition all_found (d : dialect) (f : wide_choice) (db : triggers_db) : list found_trigger :=
  flat_map (fun p => flat_map (fun o => flat_map (fun t =>
    if trigger_in_scope d f (fst p) (scope_name d o t) then found_rows d (fst p) o t else []) (ow_triggers o)) (snd p)) db.
Lemma flat_map_oks {A C} (g : A -> list (result C)) (h : A -> list C) l : (forall a, In a l -> g a = map Ok (h a)) -> flat_map g l = map Ok (flat_map h l).
Proof.
  induction l as [|a l IH]; intros H; [reflexivity|]. cbn [flat_map]. rewrite map_app, (H a (or_introl eq_refl)), IH; [reflexivity|]. intros x I. apply H. right. exact I.
Qed.
Lemma all_found_ok d f db : (forall p o t, In p db -> In o (snd p) -> In t (ow_triggers o) -> lt_sql t <> None) -> all_trigger_rows d f db = map Ok (all_found d f db).
Proof.
  intros N. unfold all_trigger_rows, all_found. apply flat_map_oks. intros p Ip. apply flat_map_oks. intros o Io. apply flat_map_oks. intros t It.
  destruct (trigger_in_scope _ _ _ _); [|reflexivity]. apply found_rows_ok. exact (N p o t Ip Io It).
Qed.
Lemma filter_flat_map {A C} (g : C -> bool) (h : A -> list C) l : filter g (flat_map h l) = flat_map (fun a => filter g (h a)) l.
Proof. induction l as [|a l IH]; [reflexivity|]. cbn [flat_map]. rewrite filter_app, IH. reflexivity. Qed.
Lemma flat_map_only {A C K} (key : A -> K) (h : A -> list C) l a : NoDup (map key l) -> In a l -> (forall b, In b l -> key b <> key a -> h b = []) -> flat_map h l = h a.
Proof.
  induction l as [|b l IH]; [contradiction|]. intros Nd I H. cbn [map] in Nd. inversion Nd as [|? ? Nb Nd']; subst. cbn [flat_map]. destruct I as [->|I].
  - replace (flat_map h l) with (@nil C); [apply app_nil_r|]. symmetry. assert (Z : forall x, In x l -> h x = []).
    { intros x Ix. apply H; [right; exact Ix|]. intros E. apply Nb. rewrite <- E. apply in_map, Ix. }
    clear - Z. induction l as [|x l IH]; [reflexivity|]. cbn [flat_map]. rewrite (Z x (or_introl eq_refl)). apply IH. intros y I. apply Z. right. exact I.
  - rewrite H; [|left; reflexivity|]. 2:{ intros E. apply Nb. rewrite E. apply in_map, I. }
    cbn [app]. apply IH; [exact Nd'|exact I|]. intros x Ix. apply H. right. exact Ix.
Qed.

Section Read.
Variables (d : dialect) (f : wide_choice) (db : triggers_db) (cat : list hall).
Hypothesis OK : triggers_db_ok d db.
Hypothesis CO : catalog_of db cat.
Hypothesis WO : wanted_only d f cat.
Hypothesis CL : clear_triggers d f db cat.

Lemma once : each_once cat.
Proof. destruct CO as (Nd & H). split; [exact Nd|]. intros h I. destruct (H h I) as (A & B & _). auto. Qed.
Lemma filter_is_good : bad_triggers_filter d f = false.
Proof.
  destruct CL as ((C1 & C2 & C3) & _). destruct OK as (O & _). unfold bad_triggers_filter, bad_filter.
  destruct d; try congruence; try reflexivity; rewrite !bad_list_clear by (try apply C1; try apply C3; try exact C2; try discriminate; reflexivity); reflexivity.
Qed.
(** The owners of the catalog are in scope. *)
Lemma owner_in_scope p o t h x (v : bool) : In p db -> In o (snd p) -> In t (ow_triggers o) -> In h cat -> ha_name h = fst p -> In x (if v then ha_views h else ha_tables h) -> fst x = ow_name o -> ow_view o = v ->
  trigger_in_scope d f (fst p) (scope_name d o t) = true.
Proof.
  intros Ip Io It Ih Eh Ix Ex Ev. pose proof CL as (CW & CO' & _). destruct OK as (O & _ & Hp). destruct (Hp p Ip) as (_ & _ & _ & Ho). destruct (Ho o Io) as (Nn & _ & _).
  assert (IC : in_catalog cat (fst p) o). { exists h, x. split; [exact Ih|]. split; [exact Eh|]. split; [exact Ex|]. rewrite Ev. exact Ix. }
  destruct (CO' p o Ip Io IC) as (Cn & Cv & Ct & Cs & _). { intros Z. rewrite Z in It. contradiction. }
  assert (Es : scope_name d o t = ow_name o). { unfold scope_name. destruct d; try reflexivity. apply (proj2 (Cs eq_refl)). exact It. }
  rewrite Es. unfold trigger_in_scope, in_scope. rewrite not_system by assumption.
  assert (W : (f_system (w_choice f) || negb (system d (fst p) (ow_name o))) && match d with SQLite => true | _ => chosen (f_schemas (w_choice f)) (f_exschemas (w_choice f)) (fst p) end = true
            /\ chosen (f_tables (w_choice f)) (f_extables (w_choice f)) (ow_name o) = true
            /\ (d = SQLServer -> chosen (w_views f) (w_exviews f) (ow_name o) = true)).
  { destruct (WO h Ih) as [W1 W2]. destruct v.
    - specialize (W2 x Ix). rewrite Eh, Ex in W2. unfold wanted in W2. apply andb_prop in W2 as [W2 W3]. split; [exact W2|]. split; [exact (Cv Ev)|]. intros _. exact W3.
    - specialize (W1 x Ix). rewrite Eh, Ex in W1. unfold wanted in W1. apply andb_prop in W1 as [W1 W3]. split; [exact W1|]. split; [exact W3|]. intros Z. exact (Ct Z Ev). }
  destruct W as (W1 & W2 & W3). destruct CW as (C1 & C2 & C3).
  assert (L2 : listed (f_tables (w_choice f)) (f_extables (w_choice f)) (ow_name o) = true).
  { destruct d; try (rewrite listed_chosen by exact C2; exact W2). rewrite listed_named; [exact W2|exact C2|]. intros _. exact Nn. }
  rewrite L2. rewrite andb_true_r.
  assert (L1 : match d with SQLite => true | _ => listed (f_schemas (w_choice f)) (f_exschemas (w_choice f)) (fst p) end = match d with SQLite => true | _ => chosen (f_schemas (w_choice f)) (f_exschemas (w_choice f)) (fst p) end).
  { destruct d; try reflexivity; apply listed_chosen, C1; discriminate. }
  rewrite L1, W1. cbn [andb]. destruct d; try reflexivity. rewrite listed_chosen by (apply C3; reflexivity). apply W3. reflexivity.
Qed.
(** The rows that belong to a table or view are those of its triggers. *)
Lemma rows_of_owner p o h x (v : bool) : In p db -> In o (snd p) -> In h cat -> ha_name h = fst p -> In x (if v then ha_views h else ha_tables h) -> fst x = ow_name o -> ow_view o = v ->
  filter (matches (fst p) (ow_name o) v) (all_found d f db) = flat_map (found_rows d (fst p) o) (ow_triggers o).
Proof.
  intros Ip Io Ih Eh Ix Ex Ev. pose proof OK as (O & Nd & Hp). destruct (Hp p Ip) as (Sq & Nn & Nl & Ho). destruct (Ho o Io) as (_ & _ & Ft). rewrite Forall_forall in Ft.
  assert (Sch : forall s o' t r, In r (found_rows d s o' t) -> ft_schema r = (match d with SQLite => [] | _ => s end)).
  { intros s o' t r. unfold found_rows. destruct d; try (intros [<-|[]]; reflexivity); [|contradiction]. destruct (lt_internal t); [contradiction|]. intros I. apply in_map_iff in I as (c & <- & _). reflexivity. }
  assert (Tab : forall s o' t r, In r (found_rows d s o' t) -> ft_table r = scope_name d o' t).
  { intros s o' t r. unfold found_rows, scope_name. destruct d; try (intros [<-|[]]; reflexivity); [|contradiction]. destruct (lt_internal t); [contradiction|]. intros I. apply in_map_iff in I as (c & <- & _). reflexivity. }
  assert (None_ : forall s o' t, (forall r, In r (found_rows d s o' t) -> matches (fst p) (ow_name o) v r = false) -> filter (matches (fst p) (ow_name o) v) (if trigger_in_scope d f s (scope_name d o' t) then found_rows d s o' t else []) = []).
  { intros s o' t Hr. destruct (trigger_in_scope _ _ _ _); [|reflexivity]. apply filter_none. exact Hr. }
  unfold all_found. rewrite filter_flat_map. rewrite (flat_map_only fst _ db p Nd Ip).
  2:{ intros q Iq Nq. rewrite filter_flat_map. rewrite flat_map_concat_map. replace (map _ (snd q)) with (map (fun _ : owner => @nil found_trigger) (snd q)); [induction (snd q); [reflexivity|assumption]|].
      apply map_ext. intros o'. rewrite filter_flat_map. symmetry. rewrite flat_map_concat_map. replace (map _ (ow_triggers o')) with (map (fun _ : live_trigger => @nil found_trigger) (ow_triggers o')); [induction (ow_triggers o'); [reflexivity|assumption]|].
      apply map_ext. intros t. symmetry. apply None_. intros r Ir. unfold matches. destruct (dialect_eq_dec d SQLite) as [Ed|Ed].
      - exfalso. apply Nq. destruct (Hp q Iq) as (Sq' & _). rewrite (Sq Ed), (Sq' Ed). reflexivity.
      - assert (Q : ft_schema r = fst q) by (rewrite (Sch _ _ _ _ Ir); destruct d; congruence). rewrite Q. destruct (beqb_spec (fst q) (fst p)); [contradiction|reflexivity]. }
  rewrite filter_flat_map. rewrite (flat_map_only ow_name _ (snd p) o Nn Io).
  2:{ intros o' Io' No. rewrite filter_flat_map. rewrite flat_map_concat_map. replace (map _ (ow_triggers o')) with (map (fun _ : live_trigger => @nil found_trigger) (ow_triggers o')); [induction (ow_triggers o'); [reflexivity|assumption]|].
      apply map_ext_in. intros t It. symmetry. apply None_. intros r Ir. unfold matches. rewrite (Tab _ _ _ _ Ir). replace (beqb (scope_name d o' t) (ow_name o)) with false; [rewrite andb_false_r; reflexivity|].
      symmetry. destruct (beqb_spec (scope_name d o' t) (ow_name o)) as [E|E]; [|reflexivity]. exfalso. unfold scope_name in E. destruct (dialect_eq_dec d SQLite) as [Ed|Ed].
      - rewrite Ed in E. destruct (Ho o' Io') as (_ & _ & Ft'). rewrite Forall_forall in Ft'. destruct (Ft' t It) as (_ & _ & Lo & _). specialize (Lo Ed). specialize (Nl Ed). rewrite E in Lo.
        assert (U : forall l (a b : owner), NoDup (map (fun o => to_lower (ow_name o)) l) -> In a l -> In b l -> to_lower (ow_name a) = to_lower (ow_name b) -> a = b).
        { clear. induction l as [|c l IH]; [contradiction|]. intros a b Nd. cbn [map] in Nd. inversion Nd as [|? ? Nc Nd']; subst. intros [->|Ia] [->|Ib] E; try reflexivity.
          - exfalso. apply Nc. rewrite E. apply (in_map (fun o => to_lower (ow_name o))), Ib.
          - exfalso. apply Nc. rewrite <- E. apply (in_map (fun o => to_lower (ow_name o))), Ia.
          - exact (IH a b Nd' Ia Ib E). }
        apply No. rewrite (U (snd p) o' o Nl Io' Io (eq_sym Lo)). reflexivity.
      - apply No. destruct d; try congruence. }
  rewrite filter_flat_map. rewrite !flat_map_concat_map. f_equal. apply map_ext_in. intros t It. rewrite (owner_in_scope p o t h x v Ip Io It Ih Eh Ix Ex Ev).
  apply filter_all. intros r Ir. unfold matches. rewrite (Sch _ _ _ _ Ir), (Tab _ _ _ _ Ir).
  assert (IC : in_catalog cat (fst p) o). { exists h, x. split; [exact Ih|]. split; [exact Eh|]. split; [exact Ex|]. rewrite Ev. exact Ix. }
  destruct CL as (_ & CO' & _). destruct (CO' p o Ip Io IC) as (_ & _ & _ & Cs & _). { intros Z. rewrite Z in It. contradiction. }
  destruct (Ft t It) as (_ & _ & _ & My). unfold scope_name. unfold found_rows in Ir. destruct d.
  - rewrite (Sq eq_refl). destruct (Cs eq_refl) as [V On]. rewrite (On t It), !beqb_refl. destruct Ir as [<-|[]]. cbn [ft_view andb]. rewrite <- Ev, V. reflexivity.
  - rewrite !beqb_refl. cbn [andb]. destruct (lt_internal t); [contradiction|]. apply in_map_iff in Ir as (c & <- & _). cbn [ft_view]. rewrite Ev. apply Bool.eqb_reflx.
  - rewrite !beqb_refl. cbn [andb]. destruct Ir as [<-|[]]. cbn [ft_view]. rewrite <- Ev, (My eq_refl). reflexivity.
  - rewrite !beqb_refl. cbn [andb]. destruct Ir as [<-|[]]. cbn [ft_view]. rewrite Ev. apply Bool.eqb_reflx.
  - contradiction O. reflexivity.
Qed.
Lemma rows_same p o h x (v : bool) : In p db -> In o (snd p) -> In h cat -> ha_name h = fst p -> In x (if v then ha_views h else ha_tables h) -> fst x = ow_name o -> ow_view o = v ->
  Forall2 (same_trigger d (fst p) (ow_name o)) (filter (fun t => negb (lt_internal t)) (ow_triggers o)) (flat_map (found_rows d (fst p) o) (ow_triggers o))
  /\ map ft_name (flat_map (found_rows d (fst p) o) (ow_triggers o)) = map lt_name (filter (fun t => negb (lt_internal t)) (ow_triggers o)).
Proof.
  intros Ip Io Ih Eh Ix Ex Ev. pose proof OK as (O & Nd & Hp). destruct (Hp p Ip) as (Sq & _ & _ & Ho). destruct (Ho o Io) as (_ & _ & Ft). rewrite Forall_forall in Ft.
  assert (IC : in_catalog cat (fst p) o). { exists h, x. split; [exact Ih|]. split; [exact Eh|]. split; [exact Ex|]. rewrite Ev. exact Ix. }
  destruct CL as (_ & CO' & Tx). specialize (CO' p o Ip Io IC).
  assert (One : forall t, In t (ow_triggers o) -> if lt_internal t then found_rows d (fst p) o t = [] else exists r, found_rows d (fst p) o t = [r] /\ same_trigger d (fst p) (ow_name o) t r /\ ft_name r = lt_name t).
  { intros t It. destruct CO' as (_ & _ & _ & Cs & Sy). { intros Z. rewrite Z in It. contradiction. }
    destruct (Ft t It) as (Np & _ & _ & _). pose proof (Tx p o t Ip Io It) as Nt. destruct (lt_sql t) as [q|] eqn:Eq; [|contradiction]. unfold found_rows. rewrite Eq.
    destruct d; try (destruct Np as (Nc & _ & Ni); [discriminate|]; rewrite Ni).
    - eexists. split; [reflexivity|]. split; [|reflexivity]. destruct (Cs eq_refl) as [_ On]. split; [symmetry; apply Sq; reflexivity|]. split; [apply On, It|]. split; [reflexivity|].
      split; [exists q; split; [exact Eq|apply unix_lf]|]. split; [symmetry; exact Nc|discriminate].
    - destruct (lt_internal t); [reflexivity|]. unfold descriptions. rewrite (Sy t It), app_nil_r. exists (FoundTrigger (fst p) (ow_name o) (lt_name t) (ow_view o) (unix_lines (q ++ B";")) [] (lt_comment t)).
      split; [destruct (lt_comment t); reflexivity|]. split; [|reflexivity]. split; [reflexivity|]. split; [reflexivity|]. split; [reflexivity|].
      split; [exists q; split; [exact Eq|apply unix_lf]|]. split; [reflexivity|discriminate].
    - eexists. split; [reflexivity|]. split; [|reflexivity]. split; [reflexivity|]. split; [reflexivity|]. split; [reflexivity|].
      split; [exists q; split; [exact Eq|apply unix_lf]|]. split; [symmetry; exact Nc|]. intros _. split; reflexivity.
    - eexists. split; [reflexivity|]. split; [|reflexivity]. split; [reflexivity|]. split; [reflexivity|]. split; [reflexivity|].
      split; [exists q; split; [exact Eq|apply unix_lf]|]. split; [symmetry; exact Nc|discriminate].
    - contradiction O. reflexivity. }
  clear - One. induction (ow_triggers o) as [|t l IH]; [split; constructor|]. specialize (IH (fun u I => One u (or_intror I))). specialize (One t (or_introl eq_refl)). cbn [filter flat_map].
  destruct (lt_internal t); cbn [negb]; [rewrite One; exact IH|]. destruct One as (r & -> & S & N). cbn [app map]. destruct IH as [IH1 IH2]. split; [constructor; assumption|]. rewrite N, IH2. reflexivity.
Qed.
Lemma owned_by p o (v : bool) : In p db -> In o (snd p) -> ow_view o = v -> owned db (fst p) (ow_name o) v = filter (fun t => negb (lt_internal t)) (ow_triggers o).
Proof.
  intros Ip Io Ev. destruct OK as (_ & Nd & Hp). destruct (Hp p Ip) as (_ & Nn & _). unfold owned. rewrite (flat_map_only fst _ db p Nd Ip).
  - rewrite beqb_refl. rewrite (flat_map_only ow_name _ (snd p) o Nn Io).
    + rewrite beqb_refl, Ev, Bool.eqb_reflx. reflexivity.
    + intros o' _ No. destruct (beqb_spec (ow_name o') (ow_name o)); [contradiction|reflexivity].
  - intros q _ Nq. destruct (beqb_spec (fst q) (fst p)); [contradiction|reflexivity].
Qed.
Lemma gathered_all h x (v : bool) : In h cat -> In x (if v then ha_views h else ha_tables h) ->
  Forall2 (same_trigger d (ha_name h) (fst x)) (owned db (ha_name h) (fst x) v) (gathered (all_found d f db) (ha_name h) (fst x) v (snd x)).
Proof.
  intros Ih Ix. assert (F : snd x = [] /\ found_owner db (ha_name h) (fst x) v). { destruct CO as (_ & H). destruct (H h Ih) as (_ & _ & H1 & H2). destruct v; auto. }
  destruct F as (Ee & p & o & Ip & Ep & Io & Eo & Ev). unfold gathered. rewrite Ee, <- Ep, <- Eo.
  rewrite (rows_of_owner p o h x v Ip Io Ih (eq_sym Ep) Ix (eq_sym Eo) Ev), (owned_by p o v Ip Io Ev).
  destruct (rows_same p o h x v Ip Io Ih (eq_sym Ep) Ix (eq_sym Eo) Ev) as [F N]. rewrite put_all; [exact F|]. cbn [app]. rewrite N.
  destruct OK as (_ & _ & Hp). destruct (Hp p Ip) as (_ & _ & _ & Ho). destruct (Ho o Io) as (_ & Nt & _). clear - Nt. induction (ow_triggers o) as [|t l IH]; [constructor|].
  cbn [map] in Nt. inversion Nt as [|? ? Nx Nl]; subst. cbn [filter]. destruct (negb (lt_internal t)); [|exact (IH Nl)]. cbn [map]. constructor; [|exact (IH Nl)].
  intros I. apply Nx. apply in_map_iff in I as (y & Ey & I). apply filter_In in I as [I _]. rewrite <- Ey. apply in_map, I.
Qed.
Lemma write_triggers_ok : exists cat', write_triggers d f db None cat = Ok cat' /\ triggers_read d db cat cat'.
Proof.
  exists (map (filled (all_found d f db)) cat). split.
  - unfold write_triggers, get_live_triggers. rewrite filter_is_good. rewrite all_found_ok by (apply CL). rewrite map_result_oks. destruct OK as (O & _).
    rewrite <- attach_all by exact once. destruct d; try reflexivity. contradiction O; reflexivity.
  - split; [apply filled_names|]. split.
    + rewrite map_map. apply map_ext. intros h. unfold filled. cbn [ha_tables ha_views]. rewrite !map_map. reflexivity.
    + intros h I. apply in_map_iff in I as (h' & <- & I). unfold filled. cbn [ha_name ha_tables ha_views]. split; intros y Iy; apply in_map_iff in Iy as (x & <- & Ix); cbn [fst snd].
      * exact (gathered_all h' x false I Ix).
      * exact (gathered_all h' x true I Ix).
Qed.
End Read.

(** ** Where triggers come from *)
Lemma put_from l t x : In x (put_trigger l t) -> x = t \/ In x l.
Proof. induction l as [|u l IH]; cbn [put_trigger]; [intros [<-|[]]; auto|]. destruct (beqb _ _); intros [<-|I]; [auto|right; right; exact I|right; left; reflexivity|]. destruct (IH I) as [E|E]; [auto|right; right; exact E]. Qed.
Lemma puts_from rows : forall l x, In x (fold_left put_trigger rows l) -> In x rows \/ In x l.
Proof. induction rows as [|t rows IH]; intros l x I; [auto|]. cbn [fold_left] in I. destruct (IH _ _ I) as [J|J]; [left; right; exact J|]. apply put_from in J as [->|J]; [left; left; reflexivity|auto]. Qed.
Lemma oks_from {A} (l : list (result A)) : forall r, map_result (fun x => x) l = Ok r -> l = map Ok r.
Proof.
  induction l as [|a l IH]; cbn [map_result]; intros r E; [injection E as <-; reflexivity|]. destruct a as [a| |]; cbn [bindr] in E; try discriminate.
  destruct (map_result (fun x => x) l) as [r'| |]; cbn [bindr] in E; try discriminate. injection E as <-. cbn [map]. rewrite (IH r' eq_refl). reflexivity.
Qed.
Lemma written d f db failed cat cat' : each_once cat -> write_triggers d f db failed cat = Ok cat' ->
  exists rows, cat' = map (filled rows) cat /\ map Ok rows = (match failed with Some n => firstn n (all_trigger_rows d f db) | None => all_trigger_rows d f db end).
Proof.
  intros E1 E. unfold write_triggers in E. destruct (get_live_triggers d f db failed) as [rows| |] eqn:G; cbn [bindr] in E; try discriminate. injection E as <-.
  exists rows. split; [apply attach_all, E1|]. unfold get_live_triggers in G. symmetry. apply oks_from. destruct d; try discriminate; destruct (bad_triggers_filter _ _); try discriminate; exact G.
Qed.
Lemma row_from d f db failed rows r : map Ok rows = (match failed with Some n => firstn n (all_trigger_rows d f db) | None => all_trigger_rows d f db end) -> In r rows ->
  exists p o t, In p db /\ In o (snd p) /\ In t (ow_triggers o) /\ trigger_in_scope d f (fst p) (scope_name d o t) = true /\ In (Ok r) (trigger_rows d (fst p) o t).
Proof.
  intros E I. assert (J : In (Ok r) (all_trigger_rows d f db)).
  { apply (in_map Ok) in I. rewrite E in I. destruct failed as [n|]; [|exact I]. rewrite <- (firstn_skipn n (all_trigger_rows d f db)). apply in_or_app. left. exact I. }
  unfold all_trigger_rows in J. apply in_flat_map in J as (p & Ip & J). apply in_flat_map in J as (o & Io & J). apply in_flat_map in J as (t & It & J).
  destruct (trigger_in_scope d f (fst p) (scope_name d o t)) eqn:S; [|contradiction]. exists p, o, t. auto.
Qed.
Lemma row_is d s o t r : In (Ok r) (trigger_rows d s o t) ->
  ft_schema r = (match d with SQLite => [] | _ => s end) /\ ft_table r = scope_name d o t /\ ft_name r = lt_name t
  /\ ft_view r = (match d with SQLite | MySQL => false | _ => ow_view o end)
  /\ (lt_sql t <> None -> exists q, lt_sql t = Some q /\ lf_of (match d with SQLite | Postgres => q ++ B";" | _ => q end) (ft_sql r))
  /\ (d = Postgres -> lt_internal t = false /\ In (ft_comment r) (descriptions t)) /\ (d <> Postgres -> ft_comment r = []).
Proof.
  unfold trigger_rows, scope_name. destruct d; try (destruct (lt_sql t) as [q|]; intros [I|[]]; [|discriminate]; injection I as <-; cbn;
    split; [reflexivity|]; split; [reflexivity|]; split; [reflexivity|]; split; [reflexivity|]; split; [intros _; exists q; split; [reflexivity|apply unix_lf]|]; split; [discriminate|reflexivity]); [|intros []].
  destruct (lt_internal t); [intros []|]. intros I. apply in_map_iff in I as (c & E & I). injection E as <-. cbn. split; [reflexivity|]. split; [reflexivity|]. split; [reflexivity|]. split; [reflexivity|].
  split; [|split; [intros _; split; [reflexivity|exact I]|congruence]]. intros N. destruct (lt_sql t) as [q|]; [|contradiction]. exists q. split; [reflexivity|apply unix_lf].
Qed.
(** A trigger that is attached was there already, or is in the database. *)
Lemma attached_from d f db failed cat cat' h y (v : bool) x : catalog_of db cat -> write_triggers d f db failed cat = Ok cat' ->
  In h cat' -> In y (if v then ha_views h else ha_tables h) -> In x (snd y) ->
  exists p o t, In p db /\ In o (snd p) /\ In t (ow_triggers o) /\ trigger_in_scope d f (fst p) (scope_name d o t) = true /\ In (Ok x) (trigger_rows d (fst p) o t)
    /\ ft_schema x = ha_name h /\ ft_table x = fst y /\ ft_view x = v.
Proof.
  intros (Nd & H) E Ih Iy Ix. destruct (written d f db failed cat cat') as (rows & -> & R); [split; [exact Nd|]; intros k Ik; destruct (H k Ik) as (A & B & _); auto|exact E|].
  apply in_map_iff in Ih as (k & <- & Ik). destruct (H k Ik) as (_ & _ & H1 & H2). unfold filled in *. cbn [ha_name ha_tables ha_views] in *.
  assert (Z : exists z, y = (fst z, gathered rows (ha_name k) (fst z) v []) /\ In z (if v then ha_views k else ha_tables k)).
  { destruct v; apply in_map_iff in Iy as (z & <- & Iz); exists z; (split; [|exact Iz]).
    - rewrite (proj1 (H2 z Iz)). reflexivity.
    - rewrite (proj1 (H1 z Iz)). reflexivity. }
  destruct Z as (z & -> & _). cbn [fst snd] in *. unfold gathered in Ix. apply puts_from in Ix as [Ix|[]]. apply filter_In in Ix as [Ix M].
  destruct (row_from d f db failed rows x R Ix) as (p & o & t & A). exists p, o, t. unfold matches in M. apply andb_prop in M as [M M3]. apply andb_prop in M as [M1 M2]. apply beqb_eq in M1, M2. apply Bool.eqb_prop in M3. tauto.
Qed.
