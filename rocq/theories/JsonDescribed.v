(** A tree that describes a value is stored as that value. *)
From Coq Require Import Lia.
From Verif Require Import GoStr GoStrFacts ModelArray SpecArray ArrayFacts PropArray ModelJson SpecJson JsonFacts JsonStore SpecJsonText.

Lemma jtree_ind' : forall (P : jtree -> Prop), P TNull -> P TTrue -> P TFalse -> (forall s, P (TNumber s)) -> (forall s, P (TText s)) ->
  (forall l, Forall P l -> P (TItems l)) -> (forall l, Forall (fun p => P (snd p)) l -> P (TObject l)) -> forall j, P j.
Proof.
  intros P H1 H2 H3 H4 H5 H6 H7. fix IH 1. intros [| | |s|s|l|l]; [assumption|assumption|assumption|apply H4|apply H5| |].
  - apply H6. induction l as [|x l IHl]; constructor; [apply IH|exact IHl].
  - apply H7. induction l as [|x l IHl]; constructor; [apply IH|exact IHl].
Qed.

(** ** Maps *)
Lemma with_key_iff m p q : In q (with_key m p) <-> q = p \/ In q m /\ fst q <> fst p.
Proof.
  split.
  - intros I. apply with_key_in in I. destruct I as [->|(I & L)]; [auto|]. right. split; [exact I|]. intros E. rewrite E, bltb_irrefl in L. destruct L; discriminate.
  - unfold with_key. intros [->|(I & N)]; apply in_app_iff; [right; left; reflexivity|]. destruct (bltb_total _ _ N) as [L|L]; [left|right; right]; apply filter_In; auto.
Qed.
Lemma ordered_keys m : ordered m -> NoDup (map fst m).
Proof.
  induction m as [|p m IH]; [constructor|]. intros (L & O). constructor; [|apply IH, O]. intros I. apply in_map_iff in I. destruct I as (q & E & I). specialize (L q I). rewrite E, bltb_irrefl in L. discriminate L.
Qed.
Lemma ordered_same : forall m m', ordered m -> ordered m' -> (forall q, In q m <-> In q m') -> m = m'.
Proof.
  induction m as [|p m IH]; intros [|p' m'] O O' H.
  - reflexivity.
  - destruct (proj2 (H p') (or_introl eq_refl)).
  - destruct (proj1 (H p) (or_introl eq_refl)).
  - destruct O as (L & O), O' as (L' & O'). assert (E : p = p').
    { destruct (proj1 (H p) (or_introl eq_refl)) as [E|I]; [symmetry; exact E|]. destruct (proj2 (H p') (or_introl eq_refl)) as [E|I']; [exact E|].
      specialize (L _ I'). specialize (L' _ I). rewrite (bltb_asym _ _ L) in L'. discriminate L'. }
    subst p'. f_equal. apply IH; [exact O|exact O'|]. intros q. split; intros I.
    + destruct (proj1 (H q) (or_intror I)) as [E|I']; [|exact I']. subst q. specialize (L p I). rewrite bltb_irrefl in L. discriminate L.
    + destruct (proj2 (H q) (or_intror I)) as [E|I']; [|exact I']. subst q. specialize (L' p I). rewrite bltb_irrefl in L'. discriminate L'.
Qed.
Definition entry (j : jtree) : bytes := match j with TText s => s | _ => [] end.
Lemma store_map_any : forall ms m0, ordered m0 -> NoDup (map fst ms) -> (forall k, In k (map fst ms) -> ~ In k (map fst m0)) -> (forall k j, In (k, j) ms -> j = TNull \/ exists s, j = TText s) ->
  exists m, store_map ms m0 = Ok m /\ ordered m /\ forall k s, In (k, s) m <-> In (k, s) m0 \/ exists j, In (k, j) ms /\ s = entry j.
Proof.
  induction ms as [|[k j] ms IH]; intros m0 O N D A.
  - exists m0. split; [reflexivity|]. split; [exact O|]. intros k s. split; [auto|]. intros [I|(j & [] & _)]. exact I.
  - inversion N as [|? ? N1 N2]; subst. cbn [map fst] in *. assert (X : store_map ((k, j) :: ms) m0 = store_map ms (put_key m0 k (entry j))).
    { destruct (A k j (or_introl eq_refl)) as [->|(s & ->)]; reflexivity. }
    rewrite X, put_with_key by exact O. assert (W : forall q, In q (with_key m0 (k, entry j)) <-> q = (k, entry j) \/ In q m0).
    { intros q. rewrite with_key_iff. cbn [fst]. split; [tauto|]. intros [->|I]; [auto|]. right. split; [exact I|]. intros E. apply (D k (or_introl eq_refl)). rewrite <- E. apply in_map, I. }
    destruct (IH (with_key m0 (k, entry j))) as (m & E & Om & H).
    + apply with_key_ordered, O.
    + exact N2.
    + intros k' I J. apply in_map_iff in J. destruct J as (q & E & J). apply W in J. destruct J as [->|J]; [cbn in E; subst k'; contradiction|]. apply (D k'); [right; exact I|]. rewrite <- E. apply in_map, J.
    + intros k' j' I. apply (A k' j'). right. exact I.
    + exists m. split; [exact E|]. split; [exact Om|]. intros k' s. rewrite H, W. split.
      * intros [[E'|I]|(j' & I & E')]; [injection E' as -> ->; right; exists j; split; [left; reflexivity|reflexivity]|left; exact I|right; exists j'; split; [right; exact I|exact E']].
      * intros [I|(j' & [E'|I] & E2)]; [left; right; exact I|injection E' as -> ->; left; left; subst s; reflexivity|right; exists j'; auto].
Qed.

(** ** Structs *)
(** The fields named in [done] have their values, the others are empty. *)
Fixpoint mix (done : list bytes) (fs : list (bytes * shape)) (vs : list (bytes * gval)) : list (bytes * gval) :=
  match fs, vs with
  | f :: fs', v :: vs' => (fst f, if bmem (fst f) done then snd v else zero (snd f)) :: mix done fs' vs'
  | _, _ => []
  end.
Lemma mix_nothing fs : forall vs, map fst vs = map fst fs -> mix [] fs vs = map (fun f => (fst f, zero (snd f))) fs.
Proof. induction fs as [|f fs IH]; intros [|v vs] E; try discriminate E; [reflexivity|]. cbn [mix map]. injection E as _ E. rewrite IH by exact E. reflexivity. Qed.
Lemma mix_all done fs : forall vs, map fst vs = map fst fs -> (forall k t v, In (k, t) fs -> In (k, v) vs -> ~ In k done -> v = zero t) -> mix done fs vs = vs.
Proof.
  induction fs as [|[k t] fs IH]; intros [|[k' v] vs] E H; try discriminate E; [reflexivity|]. cbn [map fst] in E. injection E as -> E. cbn [mix fst snd]. rewrite IH; [|exact E|intros a b c I J; apply H; right; assumption].
  destruct (bmem k done) eqn:M; [reflexivity|]. rewrite (H k t v); [reflexivity|left; reflexivity|left; reflexivity|]. intros I. apply bmem_In in I. congruence.
Qed.
Lemma mix_value done fs : forall vs k t, map fst vs = map fst fs -> NoDup (map fst fs) -> In (k, t) fs -> ~ In k done -> field_value (mix done fs vs) k = zero t.
Proof.
  induction fs as [|[k0 t0] fs IH]; intros [|[k' v] vs] k t E N I D; try discriminate E; [destruct I|]. cbn [map fst] in E, N. injection E as -> E. inversion N as [|? ? N1 N2]; subst. cbn [mix field_value fst snd].
  destruct I as [I|I].
  - injection I as -> ->. rewrite beqb_refl. destruct (bmem k done) eqn:M; [apply bmem_In in M; contradiction|reflexivity].
  - assert (beqb k0 k = false) as -> by (apply beqb_neq; intros ->; apply N1; apply in_map_iff; exists (k, t); auto). apply IH; assumption.
Qed.
Lemma mix_ext done done' fs : forall vs, (forall k, In k (map fst fs) -> bmem k done = bmem k done') -> mix done fs vs = mix done' fs vs.
Proof. induction fs as [|f fs IH]; intros [|v vs] H; try reflexivity. cbn [mix]. rewrite (H (fst f) (or_introl eq_refl)), (IH vs); [reflexivity|]. intros k I. apply H. right. exact I. Qed.
Lemma bmem_cons k k' l : bmem k (k' :: l) = beqb k k' || bmem k l.
Proof. reflexivity. Qed.
Lemma mix_set done fs : forall vs k v, map fst vs = map fst fs -> NoDup (map fst fs) -> In (k, v) vs -> set_field (mix done fs vs) k v = mix (k :: done) fs vs.
Proof.
  induction fs as [|[k0 t0] fs IH]; intros [|[k' v'] vs] k v E N I; try discriminate E; [destruct I|]. cbn [map fst] in E, N. injection E as -> E. inversion N as [|? ? N1 N2]; subst. cbn [mix set_field fst snd]. rewrite bmem_cons.
  destruct I as [I|I].
  - injection I as -> ->. rewrite beqb_refl. cbn [orb]. f_equal. apply mix_ext. intros k' I. rewrite bmem_cons. assert (beqb k' k = false) as -> by (apply beqb_neq; intros ->; contradiction). reflexivity.
  - assert (In k (map fst fs)) by (rewrite <- E; apply in_map_iff; exists (k, v); auto). assert (beqb k0 k = false) as -> by (apply beqb_neq; intros ->; contradiction). cbn [orb]. f_equal. apply IH; assumption.
Qed.
Lemma field_found fs k t : NoDup (map fst fs) -> In (k, t) fs -> field_for fs k = Some (k, t).
Proof. intros N I. apply in_split in I. destruct I as (a & b & ->). apply (find_field a (k, t) b N). Qed.
(** Names in ASCII. *)
Definition ascii_name (s : bytes) : bool := forallb (fun c => (bv c <? 128)%N) s.
Fixpoint ascii_names (t : shape) : bool :=
  match t with
  | TList t => ascii_names t
  | TStruct fs => forallb (fun f => ascii_name (fst f) && ascii_names (snd f)) fs
  | _ => true
  end.
Lemma case_lower : forall c c', to_lower_c c = to_lower_c c' -> case_of c = case_of c'.
Proof.
  enough (forallb (fun n => let c := ascii_of_nat n in (case_of c =? N_of_ascii (to_lower_c c))%N) (seq 0 256) = true) as H.
  { assert (C : forall c, case_of c = N_of_ascii (to_lower_c c)).
    { intros c. rewrite forallb_forall in H. specialize (H (nat_of_ascii c)). cbv zeta in H. rewrite ascii_nat_embedding in H. apply N.eqb_eq, H. apply in_seq. pose proof (nat_ascii_bounded c). lia. }
    intros c c' E. rewrite !C, E. reflexivity. }
  vm_compute. reflexivity.
Qed.
Lemma within_one n a : within n n a = true -> bv a = n.
Proof. unfold within. intros H. apply andb_true_iff in H. destruct H as (H1 & H2). apply N.leb_le in H1. apply N.leb_le in H2. lia. Qed.
Lemma byte_of n a : within n n a = true -> a = ascii_of_N n.
Proof. intros H. apply within_one in H. rewrite <- H. unfold bv. symmetry. apply ascii_N_embedding. Qed.
Lemma within_ascii n a : (128 <= n)%N -> (bv a <? 128)%N = true -> within n n a = false.
Proof. intros L H. destruct (within n n a) eqn:W; [|reflexivity]. apply within_one in W. apply N.ltb_lt in H. lia. Qed.
Lemma fold_ascii f : ascii_name f = true -> fold_name f = map to_lower_c f.
Proof.
  induction f as [|a f IH]; [reflexivity|]. unfold ascii_name. cbn [forallb]. intros H. apply andb_true_iff in H. destruct H as (Ha & H). specialize (IH H).
  assert (E : fold_name (a :: f) = to_lower_c a :: fold_name f).
  { cbn [fold_name]. destruct f as [|b [|c r]]; [reflexivity| |]; rewrite (within_ascii 197 a) by (exact Ha || lia); [reflexivity|]. rewrite (within_ascii 226 a) by (exact Ha || lia). reflexivity. }
  rewrite E, IH. reflexivity.
Qed.
Lemma lower_s c : to_lower_c c = "s"%char -> case_of c = 115%N.
Proof. intros E. change 115%N with (case_of "s"%char). apply case_lower. rewrite E. reflexivity. Qed.
Lemma lower_k c : to_lower_c c = "k"%char -> case_of c = 107%N.
Proof. intros E. change 107%N with (case_of "k"%char). apply case_lower. rewrite E. reflexivity. Qed.
Lemma fold_same : forall n f k, List.length k <= n -> map to_lower_c f = fold_name k -> same_letters f k.
Proof.
  induction n as [|n IH]; intros f k L E.
  - destruct k; [|cbn in L; lia]. destruct f; [constructor|discriminate E].
  - assert (R : forall a r, k = a :: r -> fold_name k = to_lower_c a :: fold_name r -> same_letters f k).
    { intros a r -> E'. rewrite E' in E. destruct f as [|c f]; [discriminate E|]. injection E as E1 E2. apply sl_case; [apply case_lower, E1|]. apply IH; [cbn in L; lia|exact E2]. }
    destruct k as [|a [|b r]]; [destruct f; [constructor|discriminate E]|exact (R _ _ eq_refl eq_refl)|].
    destruct (within 197 197 a && within 191 191 b) eqn:W.
    + cbn [fold_name] in E. rewrite W in E. destruct f as [|c f]; [discriminate E|]. injection E as E1 E2. apply andb_true_iff in W. destruct W as (Wa & Wb). rewrite (byte_of _ _ Wa), (byte_of _ _ Wb).
      apply (sl_long_s c f r); [apply lower_s, E1|]. apply IH; [cbn in L; lia|exact E2].
    + destruct r as [|d r]; [apply (R a [b] eq_refl); cbn [fold_name]; rewrite W; reflexivity|]. destruct (within 226 226 a && within 132 132 b && within 170 170 d) eqn:V.
      * cbn [fold_name] in E. rewrite W, V in E. destruct f as [|c f]; [discriminate E|]. injection E as E1 E2. apply andb_true_iff in V. destruct V as (V & Vd). apply andb_true_iff in V. destruct V as (Va & Vb).
        rewrite (byte_of _ _ Va), (byte_of _ _ Vb), (byte_of _ _ Vd). apply (sl_kelvin c f r); [apply lower_k, E1|]. apply IH; [cbn in L; lia|exact E2].
      * apply (R a (b :: d :: r) eq_refl). cbn [fold_name]. rewrite W, V. reflexivity.
Qed.
Lemma field_missing fs k : (forall f, In f fs -> ascii_name (fst f) = true) -> ~ In k (map fst fs) -> (forall f, In f fs -> fst f <> k -> ~ same_letters (fst f) k) -> field_for fs k = None.
Proof.
  intros Hn N H. unfold field_for. assert (M : forall f, In f fs -> fst f <> k) by (intros f I E; apply N; rewrite <- E; apply in_map, I).
  destruct (find (fun f => beqb (fst f) k) fs) as [f|] eqn:F; [apply find_some in F; destruct F as (I & E); apply beqb_eq in E; destruct (M f I E)|].
  destruct (find (fun f => beqb (fold_name (fst f)) (fold_name k)) fs) as [f|] eqn:F2; [|reflexivity]. apply find_some in F2. destruct F2 as (I & E). apply beqb_eq in E. rewrite (fold_ascii _ (Hn f I)) in E.
  destruct (H f I (M f I)). exact (fold_same _ _ _ (le_n _) E).
Qed.
Lemma store_fields_any fs vs : (forall f, In f fs -> ascii_name (fst f) = true) -> NoDup (map fst fs) -> map fst vs = map fst fs -> forall ms done, NoDup (map fst ms) -> (forall k, In k (map fst ms) -> ~ In k done) ->
  (forall k t v j, In (k, t) fs -> In (k, v) vs -> In (k, j) ms -> assign t (zero t) j = Ok v) ->
  (forall k j f, In (k, j) ms -> In f fs -> fst f <> k -> ~ same_letters (fst f) k) ->
  exists done', store_fields fs ms (mix done fs vs) = Ok (mix done' fs vs) /\ forall k, In k done' <-> In k done \/ In k (map fst ms) /\ In k (map fst fs).
Proof.
  intros Hn N E. induction ms as [|[k j] ms IH]; intros done Nm D A U.
  - exists done. split; [reflexivity|]. intros k. cbn [map In]. tauto.
  - cbn [map fst] in *. inversion Nm as [|? ? N1 N2]; subst. destruct (in_dec (list_eq_dec ascii_dec) k (map fst fs)) as [I|I].
    + pose proof I as I'. apply in_map_iff in I'. destruct I' as ([k' t] & K & It). cbn in K. subst k'. assert (exists v, In (k, v) vs) as (v & Iv). { rewrite <- E in I. apply in_map_iff in I. destruct I as ([k' v] & K & Iv). cbn in K. subst k'. eauto. }
      destruct (IH (k :: done)) as (done' & S & H).
      * exact N2.
      * intros x Ix [->|Jx]; [contradiction|]. apply (D x); [right; exact Ix|exact Jx].
      * intros a b c d Ia Ib Ic. apply (A a b c d); [exact Ia|exact Ib|right; exact Ic].
      * intros a b f Ia. apply (U a b f). right. exact Ia.
      * exists done'. split.
        -- change (store_fields fs ((k, j) :: ms) ?w) with (match field_for fs k with Some f => bindr (assign (snd f) (field_value w (fst f)) j) (fun v => store_fields fs ms (set_field w (fst f) v)) | None => store_fields fs ms w end).
           rewrite (field_found fs k t N It). cbn [fst snd]. rewrite (mix_value done fs vs k t E N It) by (apply D; left; reflexivity).
           rewrite (A k t v j It Iv (or_introl eq_refl)). cbn [bindr]. rewrite (mix_set done fs vs k v E N Iv). exact S.
        -- intros x. rewrite H. cbn [In]. split; [intros [[->|]|]; tauto|intros [|([->|] & ?)]; tauto].
    + destruct (IH done) as (done' & S & H).
      * exact N2.
      * intros x Ix. apply D. right. exact Ix.
      * intros a b c d Ia Ib Ic. apply (A a b c d); [exact Ia|exact Ib|right; exact Ic].
      * intros a b f Ia. apply (U a b f). right. exact Ia.
      * exists done'. split.
        -- change (store_fields fs ((k, j) :: ms) ?w) with (match field_for fs k with Some f => bindr (assign (snd f) (field_value w (fst f)) j) (fun v => store_fields fs ms (set_field w (fst f) v)) | None => store_fields fs ms w end).
           rewrite (field_missing fs k Hn I); [exact S|]. intros f If Nf. apply (U k j f); [left; reflexivity|exact If|exact Nf].
        -- intros x. rewrite H. cbn [In]. split; [tauto|]. intros [|([->|] & ?)]; [tauto|contradiction|tauto].
Qed.

(** ** Values *)
Lemma assign_described : forall j t v, good t -> ascii_names t = true -> fits t v -> describes t v j -> assign t (zero t) j = Ok v.
Proof.
  intros j. induction j as [| | |s|s|js IH|ms IH] using jtree_ind'; intros t v G An F D.
  - inversion D as [t'| |b| | | |]; subst; [|destruct b; discriminate]. destruct t; reflexivity.
  - inversion D as [t'| |b| | | |]; subst. destruct b; [reflexivity|discriminate].
  - inversion D as [t'| |b| | | |]; subst. destruct b; [discriminate|reflexivity].
  - inversion D as [t'| |b|z| | |]; subst; [destruct b; discriminate|]. inversion F; subst. cbn [assign]. rewrite parse_dec by assumption. reflexivity.
  - inversion D as [t'| |b|z| | |]; subst; [|destruct b; discriminate]. reflexivity.
  - inversion D as [t'| |b|z|e l js' H| |]; subst; [destruct b; discriminate|]. inversion F as [| | |? ? Fl| |]; subst. inversion G; subst. cbn [assign zero].
    change (bindr (store_list e js []) (fun l1 => Ok (GList l1)) = Ok (GList l)). enough (store_list e js [] = Ok l) as -> by reflexivity. clear D F.
    revert IH. induction H as [|v j l js Dv H IHl]; intros IH; [reflexivity|]. inversion IH as [|? ? Hj Hr]; subst. inversion Fl as [|? ? Fv Fr]; subst.
    cbn [store_list]. rewrite (Hj e v) by assumption. cbn [bindr List.tl]. rewrite IHl by assumption. reflexivity.
  - inversion D as [t'| |b|z| |m ms' N H A|fs vs ms' N E H Z U]; subst; [destruct b; discriminate| |].
    + inversion F as [| | | |? O|]; subst. cbn [assign zero]. change (bindr (store_map ms []) (fun m1 => Ok (GMap m1)) = Ok (GMap m)).
      destruct (store_map_any ms [] Logic.I N) as (m' & -> & O' & H'); [intros k I []|exact A|]. cbn [bindr]. do 2 f_equal. apply ordered_same; [exact O'|exact O|].
      intros [k s]. rewrite H', H. split.
      * intros [[]|(j & I & ->)]. destruct (A k j I) as [->|(s & ->)]; [right; split; [reflexivity|exact I]|left; exact I].
      * intros [I|(-> & I)]; right; eexists; (split; [exact I|reflexivity]).
    + inversion F as [| | | | |? ? Fs]; subst. inversion G as [| | | | |? Nf Gf]; subst. cbn [assign zero].
      change (bindr (store_fields fs ms (map (fun f => (fst f, zero (snd f))) fs)) (fun m1 => Ok (GStruct m1)) = Ok (GStruct vs)).
      rewrite <- (mix_nothing fs vs E). assert (Hn : forall f, In f fs -> ascii_name (fst f) = true /\ ascii_names (snd f) = true) by (intros f If; cbn [ascii_names] in An; rewrite forallb_forall in An; apply andb_true_iff, An, If).
      destruct (store_fields_any fs vs (fun f If => proj1 (Hn f If)) Nf E ms [] N) as (done & -> & Hd).
      * intros k I [].
      * intros k t v j It Iv Ij. rewrite Forall_forall in IH, Gf. apply (IH (k, j) Ij t v); [apply (Gf (k, t) It)|apply (Hn (k, t) It)| |apply (H k t v j); assumption].
        clear - Fs Nf It Iv. induction Fs as [|[k1 t1] [k2 v2] fs vs (E1 & F1) Fs IHf]; [destruct It|]. cbn [fst snd] in *. subst k2. inversion Nf as [|? ? N1 N2]; subst.
        assert (K : map fst vs = map fst fs) by (clear - Fs; induction Fs as [|? ? ? ? (? & _) ? IHl]; [reflexivity|cbn [map]; congruence]).
        destruct It as [It|It], Iv as [Iv|Iv].
        -- injection It as -> ->. injection Iv as ->. exact F1.
        -- injection It as -> ->. exfalso. apply N1. rewrite <- K. apply in_map_iff. exists (k, v). auto.
        -- injection Iv as -> ->. exfalso. apply N1. apply in_map_iff. exists (k, t). auto.
        -- apply IHf; assumption.
      * exact U.
      * cbn [bindr]. rewrite (mix_all done fs vs E); [reflexivity|]. intros k t v It Iv Nk. apply (Z k t v It Iv). intros I. apply Nk, Hd. right. split; [exact I|]. apply in_map_iff. exists (k, t). auto.
Qed.
