(** Proofs about reading views. *)
From Coq Require Import Permutation.
From Verif Require Import GoStr GoStrFacts SpecCsv ModelCatalog ModelCache CacheFacts DdlFacts ModelWipe ModelTriggers ModelIntrospect ModelViews SpecLive IntrospectFacts IntrospectDb ExtrasFacts ModelLiveViews SpecLiveViews.

(** ** Views are added to their schemas *)
Lemma found_in_app l1 l2 s : found_in (l1 ++ l2) s = found_in l1 s ++ found_in l2 s.
Proof. apply flat_map_app. Qed.
Lemma found_in_none l s : ~ In s (map fst l) -> found_in l s = [].
Proof.
  induction l as [|p l IH]; intros H; [reflexivity|]. cbn [found_in flat_map]. destruct (beqb_spec (fst p) s) as [E|E].
  - exfalso. apply H. left. exact E.
  - cbn [app]. apply IH. intros X. apply H. right. exact X.
Qed.
(** The positions of the schemas are right, no schema is empty. *)
Definition shelves_ok (l : list shelf) (ms : kmap) : Prop :=
  NoDup (map fst l)
  /\ (forall s i, ms [s] = Some i -> exists p, nth_error l i = Some p /\ fst p = s)
  /\ (forall s, In s (map fst l) -> ms [s] <> None)
  /\ (forall p, In p l -> snd p <> []).
Definition view_key (r : bytes * found_view) : key := [fst r; vw_name (fv_view (snd r))].

Lemma add_view_new l ms (m : kmap) s v : shelves_ok l ms -> m [s; vw_name (fv_view v)] = None ->
  exists l' ms', add_view (l, ms, m) (s, v) = Ok (l', ms', upd m [s; vw_name (fv_view v)] (Some (List.length (found_in l s))))
    /\ shelves_ok l' ms'
    /\ (forall s', found_in l' s' = found_in l s' ++ (if beqb s s' then [in_its_schema s v] else [])).
Proof.
  intros (Nd & Pos & Dom & Ne) Hm. unfold add_view, get_or_create, add_or_update, at_pos. cbn [bindr].
  destruct (ms [s]) as [i|] eqn:Ei.
  - destruct (Pos s i Ei) as (p & Ep & Np). rewrite Ep. cbn [bindr]. rewrite Ep, Np. cbn [in_its_schema fv_view vw_name]. rewrite Hm. cbn [bindr enter].
    apply nth_error_split in Ep as (l1 & l2 & -> & <-). rewrite set_nth_split. fold (in_its_schema s v).
    assert (U1 : ~ In s (map fst l1) /\ ~ In s (map fst l2)).
    { rewrite map_app in Nd. cbn [map] in Nd. apply NoDup_remove in Nd as [_ Nd]. rewrite Np, in_app_iff in Nd. tauto. }
    destruct U1 as [U1 U2].
    assert (At : forall q, fst q = s -> found_in (l1 ++ q :: l2) s = snd q).
    { intros q Nq. rewrite found_in_app. rewrite (found_in_none l1 s U1). cbn [app found_in flat_map]. fold (found_in l2 s). rewrite Nq, beqb_refl, (found_in_none l2 s U2). apply app_nil_r. }
    assert (Away : forall q s', fst q = s -> s' <> s -> found_in (l1 ++ q :: l2) s' = found_in l1 s' ++ found_in l2 s').
    { intros q s' Nq Ns. rewrite found_in_app. f_equal. cbn [found_in flat_map]. rewrite Nq. destruct (beqb_spec s s'); [congruence|]. reflexivity. }
    exists (l1 ++ (s, snd p ++ [in_its_schema s v]) :: l2), ms. split; [|split].
    + rewrite At by exact Np. reflexivity.
    + assert (Nm : map fst (l1 ++ (s, snd p ++ [in_its_schema s v]) :: l2) = map fst (l1 ++ p :: l2)) by (rewrite !map_app; cbn [map fst]; congruence).
      split; [rewrite Nm; exact Nd|]. split; [|split; [rewrite Nm; exact Dom|]].
      * intros s' j Ej. destruct (Pos s' j Ej) as (q & Eq & Nq'). assert (X : nth_error (map fst (l1 ++ (s, snd p ++ [in_its_schema s v]) :: l2)) j = Some s').
        { rewrite Nm. rewrite nth_error_map, Eq. cbn. congruence. }
        rewrite nth_error_map in X. destruct (nth_error (l1 ++ (s, snd p ++ [in_its_schema s v]) :: l2) j) as [q'|]; [|discriminate X]. exists q'. split; [reflexivity|]. cbn in X. congruence.
      * intros q I. apply in_app_or in I as [I|[<-|I]].
        -- apply Ne. apply in_or_app. left. exact I.
        -- cbn [snd]. destruct (snd p); discriminate.
        -- apply Ne. apply in_or_app. right. right. exact I.
    + intros s'. destruct (beqb_spec s s') as [<-|Ns].
      * rewrite !At by (try assumption; reflexivity). reflexivity.
      * rewrite !Away by (try congruence; reflexivity). rewrite app_nil_r. reflexivity.
  - cbn [bindr]. rewrite nth_last. cbn [fst snd in_its_schema fv_view vw_name]. rewrite Hm. cbn [bindr enter app List.length]. fold (in_its_schema s v).
    assert (Ns : ~ In s (map fst l)) by (intros X; exact (Dom s X Ei)).
    exists (l ++ [(s, [in_its_schema s v])]), (upd ms [s] (Some (List.length l))). split; [|split].
    + rewrite (found_in_none l s Ns). cbn [List.length]. rewrite set_nth_split. reflexivity.
    + split; [|split; [|split]].
      * rewrite map_app. cbn [map fst]. apply (Permutation_NoDup (Permutation_cons_append _ _)). constructor; assumption.
      * intros s' i. unfold upd. destruct (keqb [s] [s']) eqn:Ek.
        -- apply cache_key_eq in Ek as [= <-]. intros [= <-]. exists (s, [in_its_schema s v]). split; [apply nth_last|reflexivity].
        -- intros X. destruct (Pos s' i X) as (p & Ep & Np). exists p. split; [|exact Np]. rewrite nth_error_app1; [exact Ep|]. apply nth_error_Some. congruence.
      * intros s'. rewrite map_app, in_app_iff. cbn [map In fst]. unfold upd. destruct (keqb [s] [s']) eqn:Ek; [discriminate|].
        intros [X|[X|[]]]; [exact (Dom s' X)|]. subst s'. rewrite keqb_refl in Ek. discriminate Ek.
      * intros q I. apply in_app_or in I as [I|[<-|[]]]; [exact (Ne q I)|discriminate].
    + intros s'. rewrite found_in_app. f_equal. cbn [found_in flat_map fst snd]. destruct (beqb s s'); reflexivity.
Qed.
Definition shelved (L : list (bytes * found_view)) (s : bytes) : list found_view :=
  map (fun r => in_its_schema s (snd r)) (filter (fun r => beqb (fst r) s) L).
Lemma add_views L : forall l ms (m : kmap), shelves_ok l ms -> NoDup (map view_key L) -> (forall r, In r L -> m (view_key r) = None) ->
  exists l' ms' m', each_row add_view (l, ms, m) L = Ok (l', ms', m') /\ shelves_ok l' ms' /\ forall s, found_in l' s = found_in l s ++ shelved L s.
Proof.
  induction L as [|[s v] L IH]; intros l ms m Ok_ Nd Fr.
  - exists l, ms, m. split; [reflexivity|]. split; [exact Ok_|]. intros; symmetry; apply app_nil_r.
  - cbn [map] in Nd. inversion Nd as [|? ? Nk Nd']; subst.
    destruct (add_view_new l ms m s v Ok_ (Fr _ (or_introl eq_refl))) as (l1 & ms1 & E1 & Ok1 & G1).
    cbn [each_row]. rewrite E1. cbn [bindr].
    destruct (IH l1 ms1 (upd m [s; vw_name (fv_view v)] (Some (List.length (found_in l s)))) Ok1 Nd') as (l2 & ms2 & m2 & E2 & Ok2 & G2).
    { intros r Ir. unfold upd. destruct (keqb [s; vw_name (fv_view v)] (view_key r)) eqn:Ek; [|apply Fr; right; exact Ir].
      exfalso. apply cache_key_eq in Ek. apply Nk. apply in_map_iff. exists r. split; [symmetry; exact Ek|exact Ir]. }
    exists l2, ms2, m2. split; [exact E2|]. split; [exact Ok2|]. intros s'. rewrite G2, G1. unfold shelved. cbn [filter fst]. destruct (beqb_spec s s') as [<-|Ns].
    + cbn [map snd]. rewrite <- app_assoc. reflexivity.
    + rewrite app_nil_r. reflexivity.
Qed.

(** ** Rows *)
Lemma to_lower_same n : (forall c, In c n -> is_upper c = false) -> to_lower n = n.
Proof.
  induction n as [|c n IH]; intros H; [reflexivity|]. cbn [to_lower map]. unfold to_lower in IH. rewrite IH by (intros x I; apply H; right; exact I).
  unfold to_lower_c. rewrite (H c (or_introl eq_refl)). reflexivity.
Qed.
Lemma folded_reg n : n <> [] -> folded n -> reg_bad n = false.
Proof.
  intros N (H & Q). destruct n as [|c n]; [contradiction|]. unfold reg_bad. apply orb_false_iff. split.
  - destruct (ceqb_spec c (ascii_of_nat 34)) as [->|E]; [|reflexivity]. exfalso. exact (Q n eq_refl).
  - destruct (existsb _ (c :: n)) eqn:E; [|reflexivity]. exfalso. apply existsb_exists in E as (x & Ix & E). destruct (H x Ix) as (_ & D & Bl).
    apply orb_prop in E as [E|E]; [apply orb_prop in E as [E|E]|].
    + destruct (ceqb_spec x "."%char) as [Z|Z]; [exact (D Z)|discriminate].
    + apply andb_prop in E as [E1 E2]. apply Nat.leb_le in E1, E2. apply Bl. right. lia.
    + destruct (ceqb_spec x " "%char) as [Z|Z]; [|discriminate]. apply Bl. left. exact Z.
Qed.
Lemma bars_split l : Forall no_bar l -> (forall n, l = [n] -> n <> []) -> split_bars (join (B"|") l) = l.
Proof.
  intros F N. destruct l as [|a l]; [reflexivity|]. unfold split_bars. destruct (join (B"|") (a :: l)) as [|c r] eqn:E.
  - destruct l as [|b l]; cbn in E; [exfalso; exact (N a eq_refl E)|]. destruct a; discriminate.
  - rewrite <- E. change (B"|") with ["|"%char]. apply split_byte_join; [discriminate|exact F].
Qed.
Lemma bars_types l : l <> [] -> Forall no_bar l -> (split_bars (join (B"|") l) = l \/ (l = [[]] /\ split_bars (join (B"|") l) = [])).
Proof.
  intros N F. destruct l as [|a l]; [contradiction|]. destruct l as [|b l].
  - destruct a as [|c a]; [right; split; reflexivity|]. left. apply bars_split; [exact F|]. intros n [= <-]. discriminate.
  - left. apply bars_split; [exact F|]. intros n. discriminate.
Qed.
Lemma text_length_join l : text_length l = List.length (join (B"|") l).
Proof.
  induction l as [|a l IH]; [reflexivity|]. destruct l as [|b l]; [reflexivity|]. change (join (B"|") (a :: b :: l)) with (a ++ B"|" ++ join (B"|") (b :: l)).
  change (text_length (a :: b :: l)) with (List.length a + 1 + text_length (b :: l)). rewrite IH, !app_length. cbn [List.length B]. cbn. lia.
Qed.
Lemma aggregated_fits d l : fits d l -> aggregated d l = Ok (join (B"|") l).
Proof.
  intros H. unfold aggregated. destruct d; cbn [fits] in H; try reflexivity; rewrite text_length_join in H.
  - rewrite firstn_all2 by exact H. reflexivity.
  - destruct (Nat.ltb_spec 4000 (List.length (join (B"|") l))); [lia|reflexivity].
Qed.
Lemma flags_split l : l <> [] -> split_bars (enum_flags l) = map (fun c => if lc_enum c then B"true" else B"false") l.
Proof.
  intros N. unfold enum_flags. apply bars_split.
  - apply Forall_map, Forall_forall. intros c _. unfold no_bar. destruct (lc_enum c); cbn; intuition discriminate.
  - intros n E. destruct l as [|c [|? ?]]; try discriminate. cbn in E. injection E as <-. destruct (lc_enum c); discriminate.
Qed.
Lemma enums_found l : enum_columns (map (fun c => if lc_enum c then B"true" else B"false") l) (map lc_name l) = map lc_name (filter lc_enum l).
Proof. induction l as [|c l IH]; [reflexivity|]. cbn [map enum_columns filter]. rewrite IH. destruct (lc_enum c); reflexivity. Qed.
Lemma upper_again c : to_upper_c (to_upper_c c) = to_upper_c c.
Proof. destruct c as [[] [] [] [] [] [] [] []]; reflexivity. Qed.
Lemma upper_twice s : to_upper (to_upper s) = to_upper s.
Proof. unfold to_upper. rewrite map_map. apply map_ext. intros c. apply upper_again. Qed.
Lemma upper_bar s : no_bar s -> no_bar (to_upper s).
Proof.
  intros H I. apply in_map_iff in I as (c & E & I). apply H. replace "|"%char with c; [exact I|].
  destruct c as [[] [] [] [] [] [] [] []]; vm_compute in E; try discriminate E; reflexivity.
Qed.
Lemma type_text_same d c : same_type d (type_text d c) (lc_type c).
Proof. destruct d; cbn [same_type type_text]; try reflexivity. apply upper_twice. Qed.

Section Read.
Variables (d : dialect) (f : choice) (db : views_db).
Hypothesis OK : views_db_ok d db.
Hypothesis CL : clear_views d f db.

Lemma view_row_clear s x : relation_ok d x -> clear_view d db s x -> exists v, view_row d db s x x = Ok [v] /\ as_it_is d s x v /\ in_its_schema s v = v.
Proof.
  intros (Nx & Nc & Kd & Sq) (Pg & _ & Tx & Cx & Br & F1 & F2). unfold view_row. destruct (lw_columns x) as [|c0 cols0] eqn:Ec; [contradiction|]. rewrite <- Ec in *.
  destruct (lw_text x) as [t|] eqn:Et; [|contradiction]. clear Tx.
  assert (F3 : fits d (map (type_text d) (lw_columns x))) by (destruct d; exact F2).
  cbn [scan_text bindr]. rewrite (aggregated_fits d _ F1), (aggregated_fits d _ F3). cbn [bindr].
  assert (Nb : Forall no_bar (map lc_name (lw_columns x))).
  { apply Forall_map. revert Br. apply Forall_impl. intros c Hc. apply Hc. }
  assert (Tb : Forall no_bar (map (type_text d) (lw_columns x))).
  { apply Forall_map. revert Br. apply Forall_impl. intros c [_ Hc]. destruct d; try exact Hc. apply upper_bar, Hc. }
  assert (S1 : split_bars (join (B"|") (map lc_name (lw_columns x))) = map lc_name (lw_columns x)).
  { apply bars_split; [exact Nb|]. intros n E. destruct (lw_columns x) as [|c [|? ?]]; try discriminate. injection E as <-. inversion Nc; assumption. }
  rewrite S1. eexists. split; [reflexivity|]. split; [|reflexivity]. unfold as_it_is. cbn [fv_view fv_materialized fv_sql fv_comment vw_schema vw_name vw_columns vw_types vw_enums].
  assert (S2 := bars_types (map (type_text d) (lw_columns x))). specialize (S2 ltac:(rewrite Ec; discriminate) Tb).
  split; [reflexivity|]. split; [reflexivity|]. split; [reflexivity|]. split; [|split; [|split; [|split; [|split]]]].
  - intros i c Ei. destruct S2 as [S2|[S2 S3]].
    + rewrite S2. erewrite nth_error_nth; [apply type_text_same|]. rewrite nth_error_map, Ei. reflexivity.
    + rewrite S3. destruct i as [|i]; cbn [nth].
      * assert (Z : type_text d c = []). { assert (W : nth_error (map (type_text d) (lw_columns x)) 0 = Some (type_text d c)) by (rewrite nth_error_map, Ei; reflexivity). rewrite S2 in W. injection W as <-. reflexivity. }
        rewrite <- Z. apply type_text_same.
      * assert (W : nth_error (map (type_text d) (lw_columns x)) (S i) = Some (type_text d c)) by (rewrite nth_error_map, Ei; reflexivity). rewrite S2 in W. destruct i; discriminate W.
  - destruct S2 as [S2|[_ S3]]; [rewrite S2, map_length; lia|rewrite S3; cbn; lia].
  - destruct d; try (rewrite filter_none; [reflexivity|]; destruct Kd as (_ & _ & _ & Fe); rewrite Forall_forall in Fe; exact Fe).
    rewrite flags_split by (rewrite Ec; discriminate). apply enums_found.
  - destruct d; destruct Kd as (K & _); destruct (lw_kind x); intuition discriminate.
  - exists t. split; [exact Et|]. apply unix_lf.
  - destruct d; try (destruct Kd as (_ & K & _); symmetry; exact K). unfold view_comment. destruct (Pg eq_refl) as (_ & _ & [E|E]); rewrite E.
    + destruct (beqb _ _); reflexivity.
    + rewrite beqb_refl. reflexivity.
Qed.
Lemma find_own p : In p (vd_schemas db) -> find (fun q : bytes * list live_relation => beqb (fst q) (fst p)) (vd_schemas db) = Some p.
Proof.
  destruct OK as (_ & Nd & _). intros I. revert Nd I. induction (vd_schemas db) as [|q l IH]; intros Nd; [contradiction|]. cbn [map] in Nd. inversion Nd as [|? ? Nq Nd']; subst.
  intros [->|I]; cbn [find]; [rewrite beqb_refl; reflexivity|]. destruct (beqb_spec (fst q) (fst p)) as [E|E]; [|exact (IH Nd' I)]. exfalso. apply Nq. rewrite E. apply in_map, I.
Qed.
Lemma find_view l x : NoDup (map lw_name l) -> In x l -> find (fun y => beqb (lw_name y) (lw_name x)) l = Some x.
Proof.
  intros Nd I. revert Nd I. induction l as [|q l IH]; intros Nd; [contradiction|]. cbn [map] in Nd. inversion Nd as [|? ? Nq Nd']; subst.
  intros [->|I]; cbn [find]; [rewrite beqb_refl; reflexivity|]. destruct (beqb_spec (lw_name q) (lw_name x)) as [E|E]; [|exact (IH Nd' I)]. exfalso. apply Nq. rewrite E. apply in_map, I.
Qed.
Lemma regclass_own p x : In p (vd_schemas db) -> In x (snd p) -> folded (fst p) -> folded (lw_name x) -> regclass db (fst p) (lw_name x) = Some x.
Proof.
  intros Ip Ix (H1 & _) (H2 & _). unfold regclass. rewrite (to_lower_same (fst p)) by (intros c I; apply H1; exact I). rewrite (to_lower_same (lw_name x)) by (intros c I; apply H2; exact I). rewrite find_own by exact Ip.
  apply find_view; [|exact Ix]. destruct OK as (_ & _ & Hp). apply Hp, Ip.
Qed.
Lemma view_scope p x : In p (vd_schemas db) -> In x (snd p) -> view_in_scope d f (fst p) x = is_view x && wanted d f (fst p) (lw_name x).
Proof.
  intros Ip Ix. unfold view_in_scope. destruct (is_view x) eqn:V; [|reflexivity]. cbn [andb]. unfold in_scope, wanted.
  destruct OK as (O & _ & Hp). destruct CL as ((C1 & C2) & Cn & _). rewrite not_system; [|exact O|apply Cn; [exact Ip|apply filter_In; split; [exact Ix|exact V]]].
  destruct (Hp p Ip) as (_ & _ & _ & Fx). rewrite Forall_forall in Fx. specialize (Fx x Ix).
  destruct d; try congruence; try (rewrite !listed_chosen by (try apply C1; try exact C2; discriminate); reflexivity).
  rewrite (listed_named (f_tables f) (f_extables f)); [reflexivity|exact C2|]. intros _. apply Fx.
Qed.
Lemma wanted_at s x : In x (wanted_views d f db s) <-> exists p, In p (vd_schemas db) /\ fst p = s /\ In x (snd p) /\ is_view x = true /\ wanted d f s (lw_name x) = true.
Proof.
  unfold wanted_views. rewrite in_flat_map. split.
  - intros (p & Ip & I). destruct (beqb_spec (fst p) s) as [E|E]; [|contradiction]. apply filter_In in I as [I W]. apply filter_In in I as [I V]. exists p. auto.
  - intros (p & Ip & E & I & V & W). exists p. split; [exact Ip|]. rewrite E, beqb_refl. apply filter_In. split; [apply filter_In; split; [exact I|exact V]|exact W].
Qed.
Lemma read_clear p x : In p (vd_schemas db) -> In x (snd p) -> view_in_scope d f (fst p) x = true ->
  exists v, read_relation d db (fst p) x = Ok [v] /\ as_it_is d (fst p) x v /\ in_its_schema (fst p) v = v.
Proof.
  intros Ip Ix Vs. rewrite (view_scope p x Ip Ix) in Vs. apply andb_prop in Vs as [V W].
  assert (Cx : clear_view d db (fst p) x). { destruct CL as (_ & _ & Cv). apply Cv. apply wanted_at. exists p. auto. }
  destruct OK as (O & _ & Hp). destruct (Hp p Ip) as (_ & Ns & _ & Fx). rewrite Forall_forall in Fx. pose proof (Fx x Ix) as Rx.
  pose proof (regclass_own p x Ip Ix) as Rg.
  destruct (view_row_clear (fst p) x Rx Cx) as (v & E & A & S). exists v. split; [|split; assumption]. unfold read_relation.
  destruct d; try exact E.
  - destruct Cx as (_ & Bk & _). rewrite (Bk eq_refl). exact E.
  - destruct Cx as (Pg & _). destruct (Pg eq_refl) as (F1 & F2 & _). rewrite (folded_reg _ (Ns ltac:(discriminate)) F1), (folded_reg _ (proj1 Rx) F2). cbn [orb].
    rewrite (Rg F1 F2). exact E.
Qed.
Lemma not_bad : bad_filter d f = false.
Proof.
  destruct CL as ((C1 & C2) & _). unfold bad_filter. destruct d; try reflexivity; rewrite !bad_list_clear by (try apply C1; try exact C2; discriminate); reflexivity.
Qed.

(** What is read for a view. *)
Definition read_as (s : bytes) (x : live_relation) : found_view :=
  match read_relation d db s x with Ok [v] => v | _ => FoundView (View [] [] [] [] []) false [] [] end.
Lemma read_as_ok p x : In p (vd_schemas db) -> In x (snd p) -> view_in_scope d f (fst p) x = true ->
  read_relation d db (fst p) x = Ok [read_as (fst p) x] /\ as_it_is d (fst p) x (read_as (fst p) x) /\ in_its_schema (fst p) (read_as (fst p) x) = read_as (fst p) x.
Proof. intros Ip Ix V. destruct (read_clear p x Ip Ix V) as (v & E & A & S). unfold read_as. rewrite E. auto. Qed.
Definition all_rows : list (bytes * found_view) := map (fun '(s, x) => (s, read_as s x)) (scope_rows d f db).
Lemma scope_row s x : In (s, x) (scope_rows d f db) -> exists p, In p (vd_schemas db) /\ fst p = s /\ In x (snd p) /\ view_in_scope d f s x = true.
Proof.
  intros I. apply in_flat_map in I as (p & Ip & I). apply in_map_iff in I as (y & [= <- <-] & I). apply filter_In in I as [I V]. exists p. auto.
Qed.
Lemma get_views_ok : get_views d f db = Ok all_rows.
Proof.
  unfold get_views. rewrite not_bad.
  rewrite (map_result_ok _ (fun r => [(fst r, read_as (fst r) (snd r))])).
  - cbn [bindr]. replace (List.concat _) with all_rows; [destruct OK as (O & _); destruct d; congruence|]. unfold all_rows.
    induction (scope_rows d f db) as [|[s x] l IH]; [reflexivity|]. cbn [map List.concat app]. rewrite IH. reflexivity.
  - intros [s x] I. apply scope_row in I as (p & Ip & <- & Ix & V). destruct (read_as_ok p x Ip Ix V) as (E & _). rewrite E. reflexivity.
Qed.
Lemma all_keys : NoDup (map view_key all_rows).
Proof.
  assert (E : map view_key all_rows = map (fun r => [fst r; lw_name (snd r)]) (scope_rows d f db)).
  { unfold all_rows. rewrite map_map. apply map_ext_in. intros [s x] I. apply scope_row in I as (p & Ip & <- & Ix & V). destruct (read_as_ok p x Ip Ix V) as (_ & A & _).
    unfold view_key. cbn [fst snd]. destruct A as (_ & N & _). rewrite N. reflexivity. }
  rewrite E. clear E. unfold scope_rows. destruct OK as (_ & Nd & Hp). revert Nd Hp. induction (vd_schemas db) as [|p l IH]; intros Nd Hp; [constructor|].
  cbn [map] in Nd. inversion Nd as [|? ? Np Nd']; subst. specialize (IH Nd' (fun q I => Hp q (or_intror I))). destruct (Hp p (or_introl eq_refl)) as (_ & _ & Nn & _).
  cbn [flat_map]. rewrite map_app, map_map. cbn [fst snd]. clear Hp Nd Nd'. induction (snd p) as [|x r IHr]; [exact IH|]. cbn [map] in Nn. inversion Nn as [|? ? Nx Nr]; subst.
  cbn [filter]. destruct (view_in_scope d f (fst p) x); [|exact (IHr Nr)]. cbn [map app]. constructor; [|exact (IHr Nr)]. rewrite in_app_iff. intros [I|I].
  - apply in_map_iff in I as (y & [= Ey] & I). apply filter_In in I as [I _]. apply Nx. rewrite <- Ey. apply in_map, I.
  - apply in_map_iff in I as ([s y] & [= Es Ey] & I). apply in_flat_map in I as (q & Iq & I). apply in_map_iff in I as (z & [= Ez _] & I). apply Np. rewrite <- Es, <- Ez. apply in_map, Iq.
Qed.
Lemma wanted_rows s : Forall2 (as_it_is d s) (wanted_views d f db s) (shelved all_rows s).
Proof.
  assert (E : wanted_views d f db s = map snd (filter (fun r => beqb (fst r) s) (scope_rows d f db))).
  { unfold wanted_views, scope_rows. assert (G : forall p, In p (vd_schemas db) -> filter (view_in_scope d f (fst p)) (snd p) = filter (fun x => wanted d f (fst p) (lw_name x)) (views_of (snd p))).
    { intros p Ip. unfold views_of. assert (X : forall l, incl l (snd p) -> filter (view_in_scope d f (fst p)) l = filter (fun x => wanted d f (fst p) (lw_name x)) (filter (fun x => match lw_kind x with NotAView => false | _ => true end) l)).
      { induction l as [|x l IH]; intros Hl; [reflexivity|]. cbn [filter]. rewrite (view_scope p x Ip (Hl x (or_introl eq_refl))). specialize (IH (fun y I => Hl y (or_intror I))). unfold is_view.
        destruct (match lw_kind x with NotAView => false | _ => true end); cbn [andb filter]; rewrite IH; reflexivity. }
      apply X. intros x I. exact I. }
    revert G. induction (vd_schemas db) as [|p l IH]; intros G; [reflexivity|]. cbn [flat_map]. rewrite filter_app, map_app. rewrite <- IH by (intros q I; apply G; right; exact I). f_equal.
    rewrite (G p (or_introl eq_refl)). destruct (beqb_spec (fst p) s) as [<-|N].
    - induction (filter _ (views_of (snd p))) as [|x r IHr]; [reflexivity|]. cbn [map filter fst]. rewrite beqb_refl. cbn [map snd]. f_equal. exact IHr.
    - induction (filter _ (views_of (snd p))) as [|x r IHr]; [reflexivity|]. cbn [map filter fst]. destruct (beqb_spec (fst p) s); [contradiction|]. exact IHr. }
  rewrite E. clear E. unfold shelved, all_rows. assert (S := scope_row). revert S. induction (scope_rows d f db) as [|[t x] l IH]; intros S; [constructor|].
  cbn [map filter fst]. specialize (IH (fun t x I => S t x (or_intror I))). destruct (beqb_spec t s) as [->|N]; [|exact IH]. cbn [map snd]. constructor; [|exact IH].
  destruct (S s x (or_introl eq_refl)) as (p & Ip & <- & Ix & V). destruct (read_as_ok p x Ip Ix V) as (_ & A & Z). rewrite Z. exact A.
Qed.
Lemma write_views_ok kinds : asked_views kinds -> exists cat, write_views d kinds f db = Ok cat /\ views_read d f db cat.
Proof.
  intros A. unfold write_views. replace (match kinds with [] => true | l => bmem (B"VIEWS") l end) with true.
  2:{ destruct A as [->|A]; [reflexivity|]. destruct kinds; [reflexivity|]. symmetry. apply bmem_In, A. }
  rewrite get_views_ok. cbn [bindr].
  destruct (add_views all_rows [] (fun _ => None) (fun _ => None)) as (l & ms & m & E & (Nd & _ & _ & Ne) & G).
  - split; [constructor|]. split; [discriminate|]. split; [contradiction|]. contradiction.
  - apply all_keys.
  - reflexivity.
  - exists l. split; [exact (f_equal (fun r : result kept => bindr r (fun '(h, _, _) => Ok h)) E)|]. split; [exact Nd|]. split; [exact Ne|]. intros s. rewrite G. cbn [found_in flat_map app]. apply wanted_rows.
Qed.
End Read.

(** ** Whatever is read *)
Lemma map_result_in {A C} (h : A -> result C) l r c : map_result h l = Ok r -> In c r -> exists a, In a l /\ h a = Ok c.
Proof.
  revert r. induction l as [|a l IH]; intros r; cbn [map_result]; [intros [= <-]; contradiction|].
  destruct (h a) as [b| |] eqn:Ea; cbn [bindr]; try discriminate. destruct (map_result h l) as [r'| |]; cbn [bindr]; try discriminate. intros [= <-] [<-|I].
  - exists a. split; [left; reflexivity|exact Ea].
  - destruct (IH r' eq_refl I) as (x & Ix & Ex). exists x. split; [right; exact Ix|exact Ex].
Qed.
Lemma map_result_each {A C} (h : A -> result C) l r a : map_result h l = Ok r -> In a l -> exists c, h a = Ok c.
Proof.
  revert r. induction l as [|b l IH]; intros r; [contradiction|]. cbn [map_result]. destruct (h b) as [c| |] eqn:Eb; cbn [bindr]; try discriminate.
  destruct (map_result h l) as [r'| |]; cbn [bindr]; try discriminate. intros _ [<-|I]; [exists c; exact Eb|exact (IH r' eq_refl I)].
Qed.
Lemma row_names d db s x l v : read_relation d db s x = Ok l -> In v l -> l = [v] /\ vw_name (fv_view v) = lw_name x
  /\ exists y, view_row d db s x y = Ok [v] /\ (d <> Postgres -> y = x) /\ (d = Postgres -> regclass db s (lw_name x) = Some y).
Proof.
  assert (R : forall y, view_row d db s x y = Ok l -> In v l -> l = [v] /\ vw_name (fv_view v) = lw_name x).
  { intros y. unfold view_row. destruct (lw_columns y); [intros [= <-]; contradiction|]. destruct (scan_text _ _); cbn [bindr]; try discriminate.
    destruct (aggregated d (map lc_name _)); cbn [bindr]; try discriminate. destruct (aggregated d (map (type_text d) _)); cbn [bindr]; try discriminate. intros [= <-] [<-|[]]. split; reflexivity. }
  unfold read_relation. intros E I. destruct d.
  - destruct (lw_broken x); [discriminate|]. destruct (R x E I) as [-> N]. split; [reflexivity|]. split; [exact N|]. exists x. split; [exact E|]. split; [reflexivity|discriminate].
  - destruct (reg_bad s || _); [discriminate|]. destruct (regclass db s (lw_name x)) as [y|]; [|injection E as <-; contradiction].
    destruct (R y E I) as [-> N]. split; [reflexivity|]. split; [exact N|]. exists y. split; [exact E|]. split; [intros Z; contradiction Z; reflexivity|reflexivity].
  - destruct (R x E I) as [-> N]. split; [reflexivity|]. split; [exact N|]. exists x. split; [exact E|]. split; [reflexivity|discriminate].
  - destruct (R x E I) as [-> N]. split; [reflexivity|]. split; [exact N|]. exists x. split; [exact E|]. split; [reflexivity|discriminate].
  - destruct (R x E I) as [-> N]. split; [reflexivity|]. split; [exact N|]. exists x. split; [exact E|]. split; [reflexivity|discriminate].
Qed.
Lemma get_views_inv d f db rows : get_views d f db = Ok rows ->
  exists ls, map_result (fun '(s, x) => bindr (read_relation d db s x) (fun l => Ok (map (fun v => (s, v)) l))) (scope_rows d f db) = Ok ls /\ rows = List.concat ls.
Proof.
  intros E. unfold get_views in E. assert (X : bindr (map_result (fun '(s, x) => bindr (read_relation d db s x) (fun l => Ok (map (fun v => (s, v)) l))) (scope_rows d f db)) (fun ls => Ok (List.concat ls)) = Ok rows).
  { destruct d; try discriminate; destruct (bad_filter _ f); try discriminate; exact E. }
  destruct (map_result _ _) as [ls| |]; cbn [bindr] in X; try discriminate. exists ls. split; [reflexivity|]. congruence.
Qed.
Lemma get_views_rows d f db rows s v : get_views d f db = Ok rows -> In (s, v) rows ->
  exists x l, In (s, x) (scope_rows d f db) /\ read_relation d db s x = Ok l /\ In v l.
Proof.
  intros E I. destruct (get_views_inv d f db rows E) as (ls & El & ->). apply in_concat in I as (l & Il & I).
  destruct (map_result_in _ _ _ _ El Il) as ([t x] & Ix & Ex). destruct (read_relation d db t x) as [vs| |] eqn:Ev; cbn [bindr] in Ex; try discriminate. injection Ex as <-.
  apply in_map_iff in I as (v' & [= -> ->] & I). exists x, vs. auto.
Qed.
Lemma names_keys d f db : views_db_ok d db -> NoDup (map (fun r : bytes * live_relation => [fst r; lw_name (snd r)]) (scope_rows d f db)).
Proof.
  intros (_ & Nd & Hp). unfold scope_rows. revert Nd Hp. induction (vd_schemas db) as [|p l IH]; intros Nd Hp; [constructor|].
  cbn [map] in Nd. inversion Nd as [|? ? Np Nd']; subst. specialize (IH Nd' (fun q I => Hp q (or_intror I))). destruct (Hp p (or_introl eq_refl)) as (_ & _ & Nn & _).
  cbn [flat_map]. rewrite map_app, map_map. cbn [fst snd]. clear Hp Nd Nd'. induction (snd p) as [|x r IHr]; [exact IH|]. cbn [map] in Nn. inversion Nn as [|? ? Nx Nr]; subst.
  cbn [filter]. destruct (view_in_scope d f (fst p) x); [|exact (IHr Nr)]. cbn [map app]. constructor; [|exact (IHr Nr)]. rewrite in_app_iff. intros [I|I].
  - apply in_map_iff in I as (y & [= Ey] & I). apply filter_In in I as [I _]. apply Nx. rewrite <- Ey. apply in_map, I.
  - apply in_map_iff in I as ([s y] & [= Es Ey] & I). apply in_flat_map in I as (q & Iq & I). apply in_map_iff in I as (z & [= Ez _] & I). apply Np. rewrite <- Es, <- Ez. apply in_map, Iq.
Qed.
Lemma row_keys d f db rows : views_db_ok d db -> get_views d f db = Ok rows -> NoDup (map view_key rows).
Proof.
  intros OK E. destruct (get_views_inv d f db rows E) as (ls & El & ->). pose proof (names_keys d f db OK) as Nd. clear E. revert ls El Nd.
  induction (scope_rows d f db) as [|[s x] l IH]; intros ls; cbn [map_result]; [intros [= <-] _; constructor|].
  destruct (read_relation d db s x) as [vs| |] eqn:Ev; cbn [bindr]; try discriminate. destruct (map_result _ l) as [ls'| |] eqn:El; cbn [bindr]; try discriminate.
  intros [= <-] Nd. cbn [map fst snd] in Nd. inversion Nd as [|? ? Nk Nd']; subst. specialize (IH ls' eq_refl Nd'). cbn [List.concat]. destruct vs as [|v vs]; [exact IH|].
  destruct (row_names d db s x _ v Ev (or_introl eq_refl)) as ([= ->] & N & _). cbn [map app]. constructor; [|exact IH]. intros I. apply Nk.
  apply in_map_iff in I as ([t w] & Ek & I). apply in_concat in I as (r & Ir & I). destruct (map_result_in _ _ _ _ El Ir) as ([t' y] & Iy & Ey).
  destruct (read_relation d db t' y) as [ws| |] eqn:Ew; cbn [bindr] in Ey; try discriminate. injection Ey as <-. apply in_map_iff in I as (w' & [= -> ->] & I).
  destruct (row_names d db t y ws w Ew I) as (_ & Nw & _). apply in_map_iff. exists (t, y). split; [|exact Iy]. unfold view_key in Ek. cbn [fst snd] in *. congruence.
Qed.
(** A view that is found was read for a view of the database that is in scope. *)
Lemma found_from d kinds f db cat s v : views_db_ok d db -> write_views d kinds f db = Ok cat -> In v (found_in cat s) ->
  exists p x y, In p (vd_schemas db) /\ fst p = s /\ In x (snd p) /\ view_in_scope d f s x = true /\ vw_name (fv_view v) = lw_name x
    /\ view_row d db s x y = Ok [v] /\ (d <> Postgres -> y = x) /\ (d = Postgres -> regclass db s (lw_name x) = Some y).
Proof.
  intros OK E I. unfold write_views in E. destruct (match kinds with [] => true | l => bmem (B"VIEWS") l end); [|injection E as <-; contradiction].
  destruct (get_views d f db) as [rows| |] eqn:Er; cbn [bindr] in E; try discriminate.
  destruct (add_views rows [] (fun _ => None) (fun _ => None)) as (l & ms & m & Ea & _ & G).
  - split; [constructor|]. split; [discriminate|]. split; contradiction.
  - exact (row_keys d f db rows OK Er).
  - reflexivity.
  - pose proof (eq_trans (eq_sym (f_equal (fun r : result kept => bindr r (fun '(h, _, _) => Ok h)) Ea)) E) as X. cbn [bindr] in X. injection X as <-. rewrite G in I. cbn [found_in flat_map app] in I. unfold shelved in I. apply in_map_iff in I as ([t w] & Ew & I). apply filter_In in I as [I Es].
    cbn [fst snd] in *. apply beqb_eq in Es. subst t. destruct (get_views_rows d f db rows s w Er I) as (x & r & Ix & Ex & Iw).
    destruct (row_names d db s x r w Ex Iw) as (-> & N & y & Ey & Y1 & Y2). apply in_flat_map in Ix as (p & Ip & Ix). apply in_map_iff in Ix as (x' & [= Es Exx] & Ix). subst x'. apply filter_In in Ix as [Ix V]. rewrite Es in V.
    assert (W : in_its_schema s w = w).
    { unfold view_row in Ey. destruct (lw_columns y); [discriminate|]. destruct (scan_text _ _); cbn [bindr] in Ey; try discriminate.
      destruct (aggregated d (map lc_name _)); cbn [bindr] in Ey; try discriminate. destruct (aggregated d (map (type_text d) _)); cbn [bindr] in Ey; try discriminate. injection Ey as <-. reflexivity. }
    rewrite W in Ew. subst w. exists p, x, y. auto 10.
Qed.
(** Nothing is read if a view that is in scope cannot be read. *)
Lemma unreadable d kinds f db p x : asked_views kinds -> In p (vd_schemas db) -> In x (snd p) -> view_in_scope d f (fst p) x = true -> (forall l, read_relation d db (fst p) x <> Ok l) ->
  forall cat, write_views d kinds f db <> Ok cat.
Proof.
  intros A Ip Ix V H cat E. unfold write_views in E. replace (match kinds with [] => true | l => bmem (B"VIEWS") l end) with true in E.
  2:{ destruct A as [->|A]; [reflexivity|]. destruct kinds; [reflexivity|]. symmetry. apply bmem_In, A. }
  destruct (get_views d f db) as [rows| |] eqn:Er; cbn [bindr] in E; try discriminate. destruct (get_views_inv d f db rows Er) as (ls & El & _).
  destruct (map_result_each _ _ _ (fst p, x) El) as (c & Ec).
  - apply in_flat_map. exists p. split; [exact Ip|]. apply in_map_iff. exists x. split; [reflexivity|]. apply filter_In. auto.
  - destruct (read_relation d db (fst p) x) as [l| |] eqn:Ex; cbn [bindr] in Ec; try discriminate. exact (H l eq_refl).
Qed.
