(** Which rows are dumped, in terms of the paths found. *)
From Coq Require Import Permutation.
From Verif Require Import GoStr GoStrFacts ModelSubset SpecSubset SubsetFacts.

Lemma result_name_inj a b : result_name a = result_name b -> a = b.
Proof.
  intros E. unfold result_name in E. assert (H : B"query" ++ nat_dec a ++ B"_" = B"query" ++ nat_dec b ++ B"_") by congruence.
  apply app_inv_head in H. apply app_inv_tail in H. unfold nat_dec in H. apply N_dec_inj in H. lia.
Qed.
Lemma get_fold i m acc : NoDup (keys m) -> get_joins i (fold_left (fun a p => add_joins (fst p) (snd p) a) m acc) = get_joins i acc ++ get_joins i m.
Proof.
  revert acc. induction m as [|[k l] m IH]; intros acc N; cbn [fold_left fst snd]; [symmetry; apply app_nil_r|]. inversion N as [|? ? N1 N2]; subst. rewrite IH by exact N2.
  rewrite get_add. assert (G : get_joins i ((k, l) :: m) = if tid_eqb k i then l else get_joins i m) by (unfold get_joins; cbn [find fst]; destruct (tid_eqb k i); reflexivity). rewrite G. destruct (tid_eqb_spec i k) as [->|Ne].
  - rewrite tid_eqb_refl. rewrite (get_not_key k m) by exact N1. apply app_nil_r.
  - destruct (tid_eqb_spec k i) as [E|_]; [congruence|]. reflexivity.
Qed.
Lemma nums_add i k n m : get_nums i (add_num k n m) = if tid_eqb i k then get_nums i m ++ [n] else get_nums i m.
Proof.
  unfold get_nums. induction m as [|[k0 l] m IH]; cbn [add_num].
  - cbn [find fst]. destruct (tid_eqb_spec k i) as [->|N]; [rewrite tid_eqb_refl; reflexivity|]. destruct (tid_eqb_spec i k); [congruence|reflexivity].
  - destruct (tid_eqb_spec k0 k) as [->|N]; cbn [find fst].
    + destruct (tid_eqb_spec k i) as [->|N']; [rewrite tid_eqb_refl; reflexivity|]. destruct (tid_eqb_spec i k); [congruence|reflexivity].
    + destruct (tid_eqb_spec k0 i) as [->|N']; [|exact IH]. destruct (tid_eqb_spec i k); [contradiction|reflexivity].
Qed.
Lemma nums_fold {A} i n (m : list (tid * A)) acc x : In x (get_nums i (fold_left (fun a p => add_num (fst p) n a) m acc)) <-> In x (get_nums i acc) \/ (x = n /\ In i (map fst m)).
Proof.
  revert acc. induction m as [|[k l] m IH]; intros acc; cbn [fold_left fst map In]; [tauto|]. rewrite IH, nums_add. destruct (tid_eqb_spec i k) as [->|Ne].
  - rewrite in_app_iff. cbn [In]. intuition.
  - intuition congruence.
Qed.
Lemma all_some_ok {A C} (f : A -> option C) l : (forall x, In x l -> f x <> None) -> exists r, all_some (map f l) = Some r /\ List.length r = List.length l /\ forall y, In y r <-> exists x, In x l /\ f x = Some y.
Proof.
  induction l as [|x l IH]; intros H; cbn [map all_some].
  - exists []. split; [reflexivity|]. split; [reflexivity|]. intros y. split; [intros []|intros (x & [] & _)].
  - destruct IH as (r & E & Ln & Hr); [intros z Iz; apply H; right; exact Iz|]. destruct (f x) as [y|] eqn:Ex; [|destruct (H x (or_introl eq_refl) Ex)]. rewrite E. exists (y :: r). split; [reflexivity|].
    split; [cbn [List.length]; congruence|]. intros z. cbn [In]. rewrite Hr. split; [intros [<-|(w & I & Q)]; eauto|]. intros (w & [<-|I] & Q); [left; congruence|right; eauto].
Qed.
Lemma all_some_combine {A C} (f : A -> option C) l r : all_some (map f l) = Some r -> forall x y, In (x, y) (combine l r) -> In x l /\ f x = Some y.
Proof.
  revert r. induction l as [|a l IH]; intros r E x y; cbn [map all_some] in E.
  - injection E as <-. intros [].
  - destruct (f a) as [b|] eqn:Ea; [|discriminate E]. destruct (all_some (map f l)) as [r'|]; [|discriminate E]. injection E as <-. cbn [combine In].
    intros [Q|I]; [injection Q as <- <-; auto|]. destruct (IH r' eq_refl x y I). auto.
Qed.
Lemma in_combine_left {A C} (a : list A) (b : list C) x : List.length b = List.length a -> In x a -> exists y, In (x, y) (combine a b).
Proof.
  revert b. induction a as [|p a IH]; intros [|q b] L; try discriminate L; [intros []|]. injection L as L. cbn [combine In]. intros [->|I]; [eauto|]. destruct (IH b L I) as (y & Iy). eauto.
Qed.

Section Rows.
Context {V : Type} (cat : catalog) (CO : catalog_ok cat) (CL : closed cat).
(** What the [k]-th of the queries contributes. *)
Definition found (qs : list (squery (option V))) (k : nat) (q : squery (option V)) (m : joins) : Prop :=
  nth_error qs k = Some q /\ subset_joins cat (y_extended q) (S k) (y_table q) (y_pkey q) = Found m.
Definition results_of (qs : list (squery (option V))) := map (fun q => Qresult (y_pkey q) (y_records q)) qs.
Definition describes (qs : list (squery (option V))) (ss : subsetter (option V)) : Prop :=
  s_results ss = results_of qs
  /\ (forall i j, In j (get_joins i (s_joins ss)) <-> exists k q m, found qs k q m /\ In j (get_joins i m))
  /\ (forall i k, In k (get_nums i (s_nums ss)) <-> exists q m, found qs k q m /\ In i (keys m))
  /\ (forall k q, nth_error qs k = Some q -> exists m, found qs k q m).
Lemma describes_snoc qs ss q ss' : queries_ok cat (qs ++ [q]) -> describes qs ss -> add_subset cat (y_extended q) (y_table q) (y_pkey q) (y_records q) ss = Found ss' -> describes (qs ++ [q]) ss'.
Proof.
  intros Q (R & J & Nm & Ex) E. unfold add_subset in E. rewrite R in E. assert (L : List.length (results_of qs ++ [Qresult (y_pkey q) (y_records q)]) = S (List.length qs)).
  { rewrite app_length. unfold results_of. rewrite map_length. cbn [List.length]. lia. }
  rewrite L in E. destruct (subset_joins cat (y_extended q) (S (List.length qs)) (y_table q) (y_pkey q)) as [m| |] eqn:Em; try discriminate E. injection E as <-.
  destruct (Q q) as [It Ip]; [apply in_or_app; right; left; reflexivity|].
  destruct (subset_good cat (S (List.length qs)) (y_table q) (y_pkey q) CO It _ _ Em) as [G _].
  assert (F : forall k q' m', found (qs ++ [q]) k q' m' <-> found qs k q' m' \/ (k = List.length qs /\ q' = q /\ m' = m)).
  { intros k q' m'. unfold found. destruct (lt_dec k (List.length qs)) as [Lt|Ge].
    - rewrite nth_error_app1 by exact Lt. split; [auto|]. intros [H|(-> & _)]; [exact H|lia].
    - rewrite nth_error_app2 by lia. destruct (Nat.eq_dec k (List.length qs)) as [->|Ne].
      + rewrite Nat.sub_diag. cbn [nth_error]. split.
        * intros [[= <-] E]. right. rewrite Em in E. injection E as <-. auto.
        * intros [[H _]|(_ & -> & ->)]; [|auto]. assert (nth_error qs (List.length qs) = None) by (apply nth_error_None; lia). congruence.
      + split.
        * intros [H _]. destruct (k - List.length qs) as [|x] eqn:Ek; [lia|]. cbn [nth_error] in H. destruct x; discriminate H.
        * intros [[H _]|(-> & _)]; [|contradiction]. assert (nth_error qs k = None) by (apply nth_error_None; lia). congruence. }
  split; [|split; [|split]]; cbn [s_results s_joins s_nums].
  - unfold results_of. rewrite map_app. reflexivity.
  - intros i j. rewrite get_fold by exact (g_nodup _ _ _ _ _ G). rewrite in_app_iff, J. split.
    + intros [(k & q' & m' & Fd & I)|I]; [exists k, q', m'; split; [apply F; left; exact Fd|exact I]|exists (List.length qs), q, m; split; [apply F; auto|exact I]].
    + intros (k & q' & m' & Fd & I). apply F in Fd as [Fd|(-> & -> & ->)]; [left; eauto|right; exact I].
  - intros i k. rewrite nums_fold, Nm. cbn [Nat.sub]. rewrite Nat.sub_0_r. split.
    + intros [(q' & m' & Fd & I)|[-> I]]; [exists q', m'; split; [apply F; left; exact Fd|exact I]|exists q, m; split; [apply F; auto|exact I]].
    + intros (q' & m' & Fd & I). apply F in Fd as [Fd|(-> & -> & ->)]; [left; eauto|right; auto].
  - intros k q' E. destruct (lt_dec k (List.length qs)) as [Lt|Ge].
    + rewrite nth_error_app1 in E by exact Lt. destruct (Ex k q' E) as (m' & Fd). exists m'. apply F. left. exact Fd.
    + assert (k < List.length (qs ++ [q])) by (apply nth_error_Some; congruence). rewrite app_length in H. cbn [List.length] in H. assert (k = List.length qs) as -> by lia.
      rewrite nth_error_app2, Nat.sub_diag in E by lia. injection E as <-. exists m. apply F. auto.
Qed.
Lemma add_subsets_describes qs : queries_ok cat qs -> exists ss, add_subsets cat qs empty_subsetter = Found ss /\ describes qs ss.
Proof.
  assert (H : forall qs' qs0 ss0, queries_ok cat (qs0 ++ qs') -> describes qs0 ss0 -> exists ss, add_subsets cat qs' ss0 = Found ss /\ describes (qs0 ++ qs') ss).
  { clear qs. induction qs' as [|q qs' IH]; intros qs0 ss0 Q D0; cbn [add_subsets]; [exists ss0; split; [reflexivity|]; rewrite app_nil_r; exact D0|].
    assert (Q1 : queries_ok cat (qs0 ++ [q])) by (intros x Ix; apply Q; apply in_app_iff in Ix as [Ix|[<-|[]]]; apply in_or_app; [left; exact Ix|right; left; reflexivity]).
    destruct (add_subset cat (y_extended q) (y_table q) (y_pkey q) (y_records q) ss0) as [ss1| |] eqn:E.
    - destruct (IH (qs0 ++ [q]) ss1) as (ss & E2 & D2); [rewrite <- app_assoc; exact Q|apply (describes_snoc qs0 ss0); assumption|]. exists ss. split; [exact E2|]. rewrite <- app_assoc in D2. exact D2.
    - exfalso. destruct (Q q) as [It Ip]; [apply in_or_app; right; left; reflexivity|]. unfold add_subset in E.
      destruct (subset_found cat (List.length (s_results ss0 ++ [Qresult (y_pkey q) (y_records q)])) (y_table q) (y_pkey q) CO It (y_extended q) CL) as (m & Em). rewrite Em in E. discriminate E.
    - exfalso. destruct (Q q) as [It Ip]; [apply in_or_app; right; left; reflexivity|]. unfold add_subset in E.
      destruct (subset_found cat (List.length (s_results ss0 ++ [Qresult (y_pkey q) (y_records q)])) (y_table q) (y_pkey q) CO It (y_extended q) CL) as (m & Em). rewrite Em in E. discriminate E. }
  intros Q. apply (H qs [] empty_subsetter Q). split; [reflexivity|]. split; [|split].
  - intros i j. split; [intros []|]. intros (k & q & m & [F _] & _). destruct k; discriminate F.
  - intros i k. split; [intros []|]. intros (q & m & [F _] & _). destruct k; discriminate F.
  - intros k q F. destruct k; discriminate F.
Qed.

Context (D : db V) (qs : list (squery (option V))) (ss : subsetter (option V)) (Q : queries_ok cat qs) (DS : describes qs ss).
(** The rows [e] of the tables on a path, for the [k]-th query. *)
Definition along (k : nat) (q : squery (option V)) (j : join_path) (e : env) : Prop :=
  (exists rec, In rec (y_records q) /\ e (result_name (S k)) = row_of (y_pkey q) rec)
  /\ (forall i, In i (j_tables j) -> D i (e i)) /\ forall f, In f (j_fkeys j) -> refers f (e (f_from f)) (e (f_to f)).
Lemma path_tables k q m i j : found qs k q m -> In j (get_joins i m) -> vpath cat (S k) (y_table q) (y_pkey q) (j_tables j) (j_fkeys j) i
  /\ In i (keys m) /\ forall x, In x (j_tables j) -> (exists t, In t (c_tables cat) /\ t_id t = x) /\ forall n, x <> result_name n.
Proof.
  intros [F1 F2] I. assert (Iq : In q qs) by (apply nth_error_In in F1; exact F1). destruct (Q q Iq) as [It Ip]. destruct (subset_good _ _ _ _ CO It _ _ F2) as [G _].
  pose proof (g_paths _ _ _ _ _ G i j I) as P. split; [exact P|]. split; [apply (g_keys _ _ _ _ _ G i j); [exact I|exact (vpath_last _ _ _ _ _ _ _ P)]|].
  intros x Ix. destruct (vpath_in_catalog _ _ _ _ CO It _ _ _ CL P x Ix) as (t & A & <-). split; [eauto|]. intros n. apply (co_results _ CO); exact A.
Qed.
Lemma schema_fixed t : In t (c_tables cat) -> (if beqb (fst (t_id t)) [] then c_cur cat else fst (t_id t), snd (t_id t)) = t_id t.
Proof.
  intros I. destruct (beqb_spec (fst (t_id t)) []) as [E|E]; [|destruct (t_id t); reflexivity]. rewrite (co_schema _ CO t I E), <- E. destruct (t_id t); reflexivity.
Qed.
Lemma table_query_eq t pk : In t (c_tables cat) -> t_pkey t = Some pk -> get_nums (t_id t) (s_nums ss) <> [] -> table_query cat ss (t_id t) =
  match all_some (map (fun n => nth_error (s_results ss) n) (get_nums (t_id t) (s_nums ss))), all_some (map to_sql (get_joins (t_id t) (s_joins ss))) with
  | Some rs, Some sels => Ok (SqlQuery (map (fun p => (snd (result_name (S (fst p))), q_cols (snd p), q_records (snd p))) (combine (get_nums (t_id t) (s_nums ss)) rs))
                        sels (t_id t) pk (map fst (filter (fun c => negb (snd c)) (t_cols t))))
  | _, _ => Panic
  end.
Proof. intros It Ip N. unfold table_query. rewrite (schema_fixed t It), (find_table_in cat CO t It), Ip. destruct (get_nums (t_id t) (s_nums ss)); [contradiction|reflexivity]. Qed.
Lemma query_ok t pk : In t (c_tables cat) -> t_pkey t = Some pk -> (exists k q m, found qs k q m /\ In (t_id t) (keys m)) ->
  exists sq, table_query cat ss (t_id t) = Ok sq /\ sq_table sq = t_id t /\ sq_key sq = pk
    /\ forall r, answers D sq r <-> D (t_id t) r /\ exists k q m j e, found qs k q m /\ In j (get_joins (t_id t) m) /\ along k q j e /\ same_key pk r (e (t_id t)).
Proof.
  intros It Ip (k0 & q0 & m0 & Fd0 & Ik0). destruct DS as (R & J & Nm & Ex).
  assert (N0 : In k0 (get_nums (t_id t) (s_nums ss))) by (apply Nm; eauto).
  rewrite (table_query_eq t pk It Ip) by (intros E; rewrite E in N0; exact N0).
  set (nums := get_nums (t_id t) (s_nums ss)) in *.
  destruct (all_some_ok (fun n => nth_error (s_results ss) n) nums) as (rs & Er & Lr & Hr).
  { intros x Ix. apply Nm in Ix as (q & m & [F _] & _). rewrite R. unfold results_of. rewrite nth_error_map, F. discriminate. }
  assert (TS : forall j, In j (get_joins (t_id t) (s_joins ss)) -> exists k q m, found qs k q m /\ In j (get_joins (t_id t) m) /\ exists s, to_sql j = Some s /\ sj_first s = t_id t
     /\ forall (D' : db V) e, select D' s e <-> (forall k', In k' (result_name (S k) :: j_tables j) -> D' k' (e k')) /\ forall f, In f (j_fkeys j) -> refers f (e (f_from f)) (e (f_to f))).
  { intros j Ij. apply J in Ij as (k & q & m & Fd & Ij). exists k, q, m. split; [exact Fd|]. split; [exact Ij|]. destruct (path_tables k q m (t_id t) j Fd Ij) as (P & _ & Tb).
    destruct (to_sql_ok cat (S k) (y_table q) (y_pkey q) CO j (t_id t) P) as (s & E1 & E2 & _ & _ & E3); [intros x Ix; exact (proj2 (Tb x Ix) (S k))|]. exists s. auto. }
  destruct (all_some_ok to_sql (get_joins (t_id t) (s_joins ss))) as (sels & Es & _ & Hs).
  { intros j Ij. destruct (TS j Ij) as (_ & _ & _ & _ & _ & s & E & _). rewrite E. discriminate. }
  rewrite Er, Es. eexists. split; [reflexivity|]. cbn [sq_table sq_key]. split; [reflexivity|]. split; [reflexivity|].
  (* the rows of the results of queries and of other tables *)
  set (vs := map (fun p => (snd (result_name (S (fst p))), q_cols (snd p), q_records (snd p))) (combine nums rs)).
  assert (Wr : forall k q, In k nums -> nth_error qs k = Some q -> forall r, with_values vs D (result_name (S k)) r <-> exists rec, In rec (y_records q) /\ r = row_of (y_pkey q) rec).
  { intros k q Ik Hq r. unfold with_values. destruct (find (fun v => tid_eqb ([], fst (fst v)) (result_name (S k))) vs) as [[[nm cols] recs]|] eqn:Ef.
    - apply find_some in Ef as [I1 I2]. cbn [fst] in I2. destruct (tid_eqb_spec ([], nm) (result_name (S k))) as [Eq|]; [|discriminate I2].
      unfold vs in I1. apply in_map_iff in I1 as ([x y] & Exy & Ixy). cbn [fst snd] in Exy. injection Exy as E1 E2 E3. destruct (all_some_combine _ _ _ Er x y Ixy) as [Ix Ey].
      assert (x = k). { assert (X : result_name (S x) = result_name (S k)) by (rewrite <- Eq; unfold result_name; cbn [snd] in E1; rewrite <- E1; reflexivity). apply result_name_inj in X. lia. } subst x.
      rewrite R in Ey. unfold results_of in Ey. rewrite nth_error_map, Hq in Ey. cbn [option_map] in Ey. injection Ey as <-. cbn [q_cols q_records] in E2, E3. subst cols recs. reflexivity.
    - exfalso. destruct (in_combine_left nums rs k Lr Ik) as (y & Iy). 
      assert (X : In (snd (result_name (S k)), q_cols y, q_records y) vs) by (unfold vs; apply in_map_iff; exists (k, y); auto).
      pose proof (find_none _ _ Ef _ X) as Y. cbn [fst] in Y. change ([], snd (result_name (S k))) with (result_name (S k)) in Y. rewrite tid_eqb_refl in Y. discriminate Y. }
  assert (Wd : forall i r, (forall n, i <> result_name n) -> with_values vs D i r <-> D i r).
  { intros i r Ni. unfold with_values. destruct (find (fun v => tid_eqb ([], fst (fst v)) i) vs) as [[[nm cols] recs]|] eqn:Ef; [|reflexivity]. exfalso.
    apply find_some in Ef as [I1 I2]. cbn [fst] in I2. destruct (tid_eqb_spec ([], nm) i) as [Eq|]; [|discriminate I2].
    unfold vs in I1. apply in_map_iff in I1 as ([x y] & Exy & _). cbn [fst snd] in Exy. injection Exy as E1 E2 E3. apply (Ni (S x)). rewrite <- Eq. unfold result_name. cbn [snd] in E1. rewrite <- E1. reflexivity. }
  assert (AL : forall k q m j e, found qs k q m -> In j (get_joins (t_id t) m) ->
     ((forall k', In k' (result_name (S k) :: j_tables j) -> with_values vs D k' (e k')) /\ (forall f, In f (j_fkeys j) -> refers f (e (f_from f)) (e (f_to f)))) <-> along k q j e).
  { intros k q m j e Fd Ij. destruct (path_tables k q m (t_id t) j Fd Ij) as (_ & Ik & Tb). assert (Nk : In k nums) by (apply Nm; eauto). destruct Fd as [Fq _]. unfold along. split.
    - intros [A C]. split; [apply (Wr k q Nk Fq), A; left; reflexivity|]. split; [|exact C]. intros i Ii. apply Wd; [exact (proj2 (Tb i Ii))|]. apply A. right. exact Ii.
    - intros (A & C & E). split; [|exact E]. intros i [<-|Ii]; [apply (Wr k q Nk Fq); exact A|]. apply Wd; [exact (proj2 (Tb i Ii))|]. apply C. exact Ii. }
  intros r. unfold answers. cbn [sq_table sq_key sq_selects sq_values]. fold vs. apply and_iff_compat_l. split.
  - intros (s & e & Is & Sl & Sk). apply Hs in Is as (j & Ij & Ej). destruct (TS j Ij) as (k & q & m & Fd & Ijm & s' & E1 & _ & E3). rewrite Ej in E1. injection E1 as <-.
    exists k, q, m, j, e. split; [exact Fd|]. split; [exact Ijm|]. split; [|exact Sk]. apply (AL k q m j e Fd Ijm). apply E3. exact Sl.
  - intros (k & q & m & j & e & Fd & Ijm & Al & Sk). assert (Ij : In j (get_joins (t_id t) (s_joins ss))) by (apply J; eauto).
    destruct (path_tables k q m (t_id t) j Fd Ijm) as (P & _ & Tb). destruct (to_sql_ok cat (S k) (y_table q) (y_pkey q) CO j (t_id t) P) as (s & E1 & E2 & _ & _ & E3); [intros x Ix; exact (proj2 (Tb x Ix) (S k))|].
    exists s, e. split; [apply Hs; eauto|]. split; [|exact Sk]. apply E3. apply (AL k q m j e Fd Ijm). exact Al.
Qed.
Lemma dumped_iff t pk r : In t (c_tables cat) -> t_pkey t = Some pk ->
  dumped D cat ss (t_id t) r <-> D (t_id t) r /\ exists k q m j e, found qs k q m /\ In j (get_joins (t_id t) m) /\ along k q j e /\ same_key pk r (e (t_id t)).
Proof.
  intros It Ip. split.
  - intros (sq & E & A). destruct (get_nums (t_id t) (s_nums ss)) as [|k0 ns] eqn:En.
    + unfold table_query in E. rewrite (schema_fixed t It), (find_table_in cat CO t It), Ip, En in E. discriminate E.
    + assert (K : exists k q m, found qs k q m /\ In (t_id t) (keys m)).
      { destruct DS as (_ & _ & Nm & _). destruct (proj1 (Nm (t_id t) k0)) as (q & m & Fd & I); [rewrite En; left; reflexivity|]. eauto. }
      destruct (query_ok t pk It Ip K) as (sq' & E' & _ & _ & H). rewrite E in E'. injection E' as <-. apply H. exact A.
  - intros (Dr & k & q & m & j & e & Fd & Ij & Al & Sk). destruct (path_tables k q m (t_id t) j Fd Ij) as (_ & Ik & _).
    destruct (query_ok t pk It Ip) as (sq & E & _ & _ & H); [eauto|]. exists sq. split; [exact E|]. apply H. split; [exact Dr|]. exists k, q, m, j, e. auto.
Qed.
End Rows.
