(** What the queries need is dumped, for catalogs of certain shapes. *)
From Verif Require Import GoStr GoStrFacts ModelSubset SpecSubset SubsetFacts SubsetRows SubsetIntact.

Lemma nodup_map_inj {A C} (f : A -> C) l x y : NoDup (map f l) -> In x l -> In y l -> f x = f y -> x = y.
Proof.
  induction l as [|a l IH]; [intros _ []|]. cbn [map]. intros N. inversion N as [|? ? N1 N2]; subst. intros [->|Ix] [->|Iy] E; auto.
  - destruct N1. rewrite E. apply in_map. exact Iy.
  - destruct N1. rewrite <- E. apply in_map. exact Ix.
Qed.
Lemma get_add_mono i j b new m : In j (get_joins i m) -> In j (get_joins i (add_joins b new m)).
Proof. intros I. rewrite get_add. destruct (tid_eqb i b); [apply in_or_app; left|]; exact I. Qed.
Lemma get_keys i j m : In j (get_joins i m) -> In i (keys m).
Proof. intros I. destruct (in_dec (fun x y => match tid_eqb_spec x y with ReflectT _ e => left e | ReflectF _ ne => right ne end) i (keys m)) as [H|N]; [exact H|]. rewrite (get_not_key i m N) in I. destruct I. Qed.

Section Complete.
Context {V : Type} (cat : catalog) (CO : catalog_ok cat) (CL : closed cat) (D : db V) (OK : db_ok cat D).
Context (qs : list (squery (option V))) (ss : subsetter (option V)) (Q : queries_ok cat qs) (DS : describes cat qs ss).
Context (k : nat) (q : squery (option V)) (m : joins) (FD : found cat qs k q m).
Notation b := (t_id (y_table q)).
Lemma q_in : In q qs. Proof. destruct FD as [F _]. apply nth_error_In in F. exact F. Qed.
Lemma y_in : In (y_table q) (c_tables cat). Proof. exact (proj1 (Q q q_in)). Qed.
Lemma fkey_inj f g : In f (all_fks cat) -> In g (all_fks cat) -> f_num f = f_num g -> f = g.
Proof. apply nodup_map_inj. exact (co_nums _ CO). Qed.
Lemma visit_inv f g v : In f (all_fks cat) -> In g (all_fks cat) -> In (f_num g) (f_num f :: v) -> g = f \/ In (f_num g) v.
Proof. intros If Ig [E|I]; [left; symmetry; apply fkey_inj; assumption|right; exact I]. Qed.
Lemma not_result i : (exists t, In t (c_tables cat) /\ t_id t = i) -> i <> result_name (S k).
Proof. intros (t & It & <-). apply (co_results _ CO). exact It. Qed.
Lemma from_not_result f : In f (all_fks cat) -> f_from f <> result_name (S k).
Proof. intros I. apply not_result. destruct (from_in_tables cat CO f I) as (t & A & C & _). eauto. Qed.
Lemma to_not_result f : In f (all_fks cat) -> f_to f <> result_name (S k).
Proof. intros I. apply not_result. exact (CL f I). Qed.
(** A row found by a path. *)
Definition witness (x : joins) (i : tid) (r : row V) : Prop := exists j e, In j (get_joins i x) /\ along D k q j e /\ same r (e i).
Lemma witness_dumped t pk r : In t (c_tables cat) -> t_pkey t = Some pk -> D (t_id t) r -> witness m (t_id t) r -> dumped D cat ss (t_id t) r.
Proof.
  intros It Ip Dr (j & e & Ij & Al & Sm). apply (dumped_iff cat CO CL D qs ss Q DS t pk r It Ip). split; [exact Dr|]. exists k, q, m, j, e. split; [exact FD|]. split; [exact Ij|]. split; [exact Al|].
  intros c Ic. pose proof (do_null _ _ OK t pk r c It Ip Dr Ic) as N. rewrite <- (Sm c). destruct (r c) as [v|]; [exists v; auto|contradiction].
Qed.
(** Selected rows *)
Definition has_base (x : joins) : Prop := In (base_path (S k) (y_table q) (y_pkey q)) (get_joins b x).
Lemma forward_mono fuel todo v x v' x' : forward fuel cat todo v x = Found (v', x') -> forall i j, In j (get_joins i x) -> In j (get_joins i x').
Proof.
  intros E i j I. refine (forward_ind cat (fun _ _ y => In j (get_joins i y)) _ _ _ _ _ _ _ _ I E); [auto|]. intros. apply get_add_mono. assumption.
Qed.
Lemma backward_mono fuel todo v x v' x' : backward fuel cat todo v x = Found (v', x') -> forall i j, In j (get_joins i x) -> In j (get_joins i x').
Proof.
  intros E i j I. refine (backward_ind cat (fun _ _ y => In j (get_joins i y)) _ _ _ _ _ _ _ _ I E); [auto|]. intros. apply get_add_mono. assumption.
Qed.
Lemma start_base : has_base [(b, [base_path (S k) (y_table q) (y_pkey q)])].
Proof. unfold has_base, get_joins. cbn [find fst]. rewrite tid_eqb_refl. left. reflexivity. Qed.
Lemma found_base : has_base m.
Proof.
  destruct FD as [_ F]. unfold subset_joins in F. destruct (y_extended q).
  - destruct (backward _ _ _ _ _) as [[v m1]| |] eqn:Eb; try discriminate. destruct (forward _ _ _ _ _) as [[v2 m2]| |] eqn:Ef; try discriminate. injection F as <-.
    apply (forward_mono _ _ _ _ _ _ Ef), (backward_mono _ _ _ _ _ _ Eb), start_base.
  - destruct (forward _ _ _ _ _) as [[v2 m2]| |] eqn:Ef; try discriminate. injection F as <-. apply (forward_mono _ _ _ _ _ _ Ef), start_base.
Qed.
Lemma selected_witness x rec r : has_base x -> D b r -> In rec (y_records q) -> same_key (y_pkey q) r (row_of (y_pkey q) rec) -> witness x b r.
Proof.
  intros Hb Dr Ir K. exists (base_path (S k) (y_table q) (y_pkey q)), (upd (fun _ => row_of (y_pkey q) rec) b r).
  split; [exact Hb|]. split; [apply (along_base cat CO D k q y_in rec r); assumption|]. rewrite upd_eq. apply same_refl.
Qed.
(** Prolonging a path *)
Lemma witness_snoc x f a c j e r r' : vpath cat (S k) (y_table q) (y_pkey q) (j_tables j) (j_fkeys j) a -> link f a c -> In f (all_fks cat) -> ~ In c (j_tables j) ->
  In (Path (j_tables j ++ [c]) (j_fkeys j ++ [f])) (get_joins c x) -> along D k q j e -> same r (e a) -> D c r' ->
  ((f_from f = a /\ f_to f = c -> refers f r r') /\ (f_to f = a /\ f_from f = c -> refers f r' r)) -> witness x c r'.
Proof.
  intros P L If N I Al Sm Dr [R1 R2]. exists (Path (j_tables j ++ [c]) (j_fkeys j ++ [f])), (upd e c r'). split; [exact I|]. split.
  - apply (along_snoc cat D k q j a e c f r'); auto.
    + destruct L as [[_ <-]|[_ <-]]; [apply to_not_result|apply from_not_result]; exact If.
    + intros E. apply (refers_same f r _ r' _ Sm (same_refl _)), R1, E.
    + intros E. apply (refers_same f r' _ r _ (same_refl _) Sm), R2, E.
  - rewrite upd_eq. apply same_refl.
Qed.

(** ** Plain queries of catalogs whose tables are entered once *)
Section Once.
Context (EO : entered_once cat b) (PL : y_extended q = false).
Inductive fpath : list tid -> list fkey -> tid -> Prop :=
| fp_base : fpath [b] [base_fkey (S k) (y_table q) (y_pkey q)] b
| fp_snoc ts fs f : fpath ts fs (f_from f) -> In f (all_fks cat) -> ~ In (f_to f) ts -> fpath (ts ++ [f_to f]) (fs ++ [f]) (f_to f).
Lemma fpath_last ts fs a : fpath ts fs a -> In a ts.
Proof. intros H. destruct H; [left; reflexivity|apply in_or_app; right; left; reflexivity]. Qed.
Lemma fpath_reachable ts fs a : fpath ts fs a -> reachable cat b a.
Proof. induction 1 as [|ts fs f H IH I N]; [constructor|]. apply reach_fkey; assumption. Qed.
Lemma fpath_leave ts fs a : fpath ts fs a -> forall x, In x ts -> x = a \/ exists h, In h (all_fks cat) /\ f_from h = x.
Proof.
  induction 1 as [|ts fs f H IH I N]; intros x Ix; [destruct Ix as [<-|[]]; auto|]. apply in_app_iff in Ix as [Ix|[<-|[]]]; [|auto].
  destruct (IH x Ix) as [->|E]; [right; exists f; auto|right; exact E].
Qed.
Lemma fpath_enter ts fs a : fpath ts fs a -> forall x, In x ts -> x = b \/ exists g, In g (all_fks cat) /\ f_to g = x /\ reachable cat b (f_from g) /\ In (f_from g) ts /\ f_from g <> a.
Proof.
  induction 1 as [|ts fs f H IH I N]; intros x Ix; [destruct Ix as [<-|[]]; auto|]. apply in_app_iff in Ix as [Ix|[<-|[]]].
  - destruct (IH x Ix) as [->|(g & A & C & Rc & Ig & _)]; [auto|]. right. exists g. split; [exact A|]. split; [exact C|]. split; [exact Rc|]. split; [apply in_or_app; left; exact Ig|]. intros E. apply N. rewrite <- E. exact Ig.
  - right. exists f. split; [exact I|]. split; [reflexivity|]. split; [exact (fpath_reachable _ _ _ H)|]. pose proof (fpath_last _ _ _ H) as La. split; [apply in_or_app; left; exact La|]. intros E. apply N. rewrite <- E. exact La.
Qed.
Lemma fpath_no_cycle ts fs f : fpath ts fs (f_from f) -> In f (all_fks cat) -> ~ In (f_to f) ts.
Proof.
  intros P If Ib. pose proof (fpath_reachable _ _ _ P) as Rc.
  assert (H : exists h, In h (all_fks cat) /\ f_from h = f_to f) by (destruct (fpath_leave _ _ _ P _ Ib) as [E|E]; [exists f; auto|exact E]).
  destruct H as (h & Ih & Eh). destruct (EO f h If Ih Rc Eh) as [Nb U]. destruct (fpath_enter _ _ _ P _ Ib) as [E|(g & Ig & Eg & Rg & _ & Ne)]; [contradiction|].
  rewrite (U g Ig Rg Eg) in Ne. contradiction.
Qed.
Record once (v : list nat) (todo : list fkey) (x : joins) : Prop := {
  o_todo : forall f, In f todo -> In f (all_fks cat) /\ In (f_from f) (keys x);
  o_reach : forall i, In i (keys x) -> reachable cat b i;
  o_cover : forall f, In f (all_fks cat) -> In (f_from f) (keys x) -> In (f_num f) v \/ In f todo;
  o_visited : forall f, In f (all_fks cat) -> In (f_num f) v -> In (f_from f) (keys x) /\ In (f_to f) (keys x)
     /\ forall j, In j (get_joins (f_from f) x) -> ~ In (f_to f) (j_tables j) -> In (Path (j_tables j ++ [f_to f]) (j_fkeys j ++ [f])) (get_joins (f_to f) x);
  o_entered : forall i, In i (keys x) -> i = b \/ exists g, In g (all_fks cat) /\ In (f_num g) v /\ f_to g = i }.
Lemma once_skip f todo v x : once v (f :: todo) x -> seen f v = true -> once v todo x.
Proof.
  intros [H1 H2 H3 H4 H5] Es. apply seen_in in Es. constructor; auto.
  - intros g Ig. apply H1. right. exact Ig.
  - intros g Ig Ik. destruct (H3 g Ig Ik) as [Iv|[<-|It]]; auto.
Qed.
Lemma once_step f todo v x t : once v (f :: todo) x -> seen f v = false -> find_table cat (f_to f) = Some t ->
  once (f_num f :: v) (rev (t_fks t) ++ todo) (add_joins (f_to f) (extend (f_to f) f (get_joins (f_from f) x)) x).
Proof.
  intros [H1 H2 H3 H4 H5] Es Et. destruct (H1 f (or_introl eq_refl)) as [If Ik]. assert (Nv : ~ In (f_num f) v) by (intros I; apply seen_in in I; congruence).
  pose proof (H2 _ Ik) as Rc. pose proof Et as Et'. apply find_table_some in Et as [It Et].
  (* a table with foreign keys is not entered again *)
  assert (Nk : forall h, In h (all_fks cat) -> f_from h = f_to f -> ~ In (f_to f) (keys x)).
  { intros h Ih Eh Ikt. destruct (EO f h If Ih Rc Eh) as [Nb U]. destruct (H5 _ Ikt) as [E|(g & Ig & Iv & Eg)]; [contradiction|].
    rewrite (U g Ig) in Iv; [contradiction| |exact Eg]. apply H2. exact (proj1 (H4 g Ig Iv)). }
  constructor.
  - intros g Ig. apply in_app_iff in Ig as [Ig|Ig].
    + apply in_rev in Ig. split; [apply in_flat_map; eauto|]. apply keys_add. left. rewrite <- Et. apply (co_from _ CO _ _ It Ig).
    + destruct (H1 g (or_intror Ig)) as [A C]. split; [exact A|]. apply keys_add. right. exact C.
  - intros i Ii. apply keys_add in Ii as [->|Ii]; [apply reach_fkey; assumption|apply H2; exact Ii].
  - intros g Ig Ig'. apply keys_add in Ig' as [E|Ig'].
    + right. apply in_or_app. left. apply in_rev. rewrite rev_involutive. assert (X : In g (fks_of cat (f_to f))) by (apply (fks_of_in cat CO); auto). unfold fks_of in X. rewrite Et' in X. exact X.
    + destruct (H3 g Ig Ig') as [A|[<-|A]]; [left; right; exact A|left; left; reflexivity|right; apply in_or_app; right; exact A].
  - intros g Ig Iv. apply (visit_inv f g v If Ig) in Iv as [->|Iv].
    + split; [apply keys_add; right; exact Ik|]. split; [apply keys_add; left; reflexivity|]. intros j Ij Nj. rewrite get_add in Ij. destruct (tid_eqb_spec (f_from f) (f_to f)) as [E|_].
      * destruct (Nk f If E). rewrite <- E. exact Ik.
      * rewrite get_add, tid_eqb_refl. apply in_or_app. right. apply in_extend. exists j. auto.
    + destruct (H4 g Ig Iv) as (A & C & E). split; [apply keys_add; right; exact A|]. split; [apply keys_add; right; exact C|]. intros j Ij Nj. rewrite get_add in Ij.
      destruct (tid_eqb_spec (f_from g) (f_to f)) as [Eg|_]; [destruct (Nk g Ig Eg); rewrite <- Eg; exact A|]. apply get_add_mono. apply E; assumption.
  - intros i Ii. apply keys_add in Ii as [->|Ii].
    + right. exists f. split; [exact If|]. split; [left; reflexivity|reflexivity].
    + destruct (H5 i Ii) as [E|(g & A & C & E)]; [auto|]. right. exists g. split; [exact A|]. split; [right; exact C|exact E].
Qed.
Lemma once_found : exists v, once v [] m /\ forall i j, In j (get_joins i m) -> fpath (j_tables j) (j_fkeys j) i.
Proof.
  destruct FD as [_ F]. unfold subset_joins in F. rewrite PL in F. destruct (forward _ _ _ _ _) as [[v m']| |] eqn:Ef; try discriminate. injection F as ->. exists v. split.
  - refine (forward_ind cat once once_skip once_step _ _ _ _ _ _ _ Ef). constructor.
    + intros f I. apply in_rev in I. rewrite (t_fks_fks_of cat (y_table q) CO y_in) in I. apply (fks_of_in cat CO) in I as [A E]. split; [exact A|]. left. symmetry. exact E.
    + intros i [<-|[]]. constructor.
    + intros f I [E|[]]. right. apply in_rev. rewrite rev_involutive, (t_fks_fks_of cat (y_table q) CO y_in). apply (fks_of_in cat CO). auto.
    + intros f _ [].
    + intros i [<-|[]]. left. reflexivity.
  - refine (forward_paths cat (fun i j => fpath (j_tables j) (j_fkeys j) i) _ _ _ _ _ _ _ _ _ Ef).
    + intros f j If N P. apply fp_snoc; assumption.
    + intros i j I. apply base_joins in I as [-> ->]. constructor.
    + intros f I. apply in_rev in I. apply in_flat_map. exists (y_table q). split; [exact y_in|exact I].
Qed.
Lemma once_required i r : required D cat q i r -> witness m i r.
Proof.
  destruct once_found as (v & O & FP). induction 1 as [i r H|f r r' If H IH Dr Rf].
  - destruct H as [rec r Dr Ir K|f r r' X If H Dr Rf]; [|congruence]. apply (selected_witness m rec); auto. exact found_base.
  - destruct IH as (j & e & Ij & Al & Sm). pose proof (FP _ _ Ij) as P. pose proof (fpath_no_cycle _ _ f P If) as N.
    destruct (path_tables cat CO CL qs Q k q m _ j FD Ij) as (VP & Ik & _).
    assert (Iv : In (f_num f) v) by (destruct (o_cover _ _ _ O f If Ik) as [Iv|[]]; exact Iv).
    destruct (o_visited _ _ _ O f If Iv) as (_ & _ & E). apply (witness_snoc m f (f_from f) (f_to f) j e r r'); auto.
    + left. auto.
    + split; [auto|]. intros [E1 E2]. exfalso. apply N. rewrite E1. exact (vpath_last _ _ _ _ _ _ _ VP).
Qed.
End Once.

(** ** Queries of catalogs that are trees *)
Section Tree.
Context (up : tid -> option fkey) (depth : tid -> nat) (Ub : up b = None)
  (UT : forall f, In f (all_fks cat) -> connected cat b (f_from f) ->
     (up (f_from f) = Some f /\ depth (f_from f) = S (depth (f_to f))) \/ (up (f_to f) = Some f /\ depth (f_to f) = S (depth (f_from f)))).
Record treed (v : list nat) (x : joins) : Prop := {
  r_con : forall i, In i (keys x) -> connected cat b i;
  r_up : forall i, In i (keys x) -> i = b \/ exists g, up i = Some g /\ In (f_num g) v;
  r_visited : forall f, In f (all_fks cat) -> In (f_num f) v -> In (f_from f) (keys x) /\ In (f_to f) (keys x)
     /\ ((up (f_from f) = Some f /\ forall j, In j (get_joins (f_to f) x) -> In (Path (j_tables j ++ [f_from f]) (j_fkeys j ++ [f])) (get_joins (f_from f) x))
         \/ (up (f_to f) = Some f /\ forall j, In j (get_joins (f_from f) x) -> In (Path (j_tables j ++ [f_to f]) (j_fkeys j ++ [f])) (get_joins (f_to f) x)));
  r_depth : forall i j, In j (get_joins i x) -> forall c, In c (j_tables j) -> depth c <= depth i;
  r_prefix : forall i j, In j (get_joins i x) -> i = b \/ exists g a j0, up i = Some g /\ link g a i /\ In j0 (get_joins a x) /\ j = Path (j_tables j0 ++ [i]) (j_fkeys j0 ++ [g]) }.
Lemma treed_step v x f a c : treed v x -> In f (all_fks cat) -> ~ In (f_num f) v -> In a (keys x) -> link f a c ->
  treed (f_num f :: v) (add_joins c (extend c f (get_joins a x)) x) /\ up c = Some f /\ ~ In c (keys x).
Proof.
  intros [H1 H2 H3 H4 H5] If Nv Ia L. pose proof (H1 a Ia) as Ca.
  assert (Cc : connected cat b c) by (destruct L as [[<- <-]|[<- <-]]; [apply con_forward|apply con_backward]; assumption).
  assert (X : up c = Some f /\ depth c = S (depth a)).
  { assert (Na : up a <> Some f). { intros E. destruct (H2 a Ia) as [->|(g & Eg & Iv)]; [congruence|]. assert (g = f) as -> by congruence. contradiction. }
    destruct L as [[<- <-]|[<- <-]].
    - destruct (UT f If Ca) as [[E _]|E]; [contradiction|exact E].
    - destruct (UT f If Cc) as [E|[E _]]; [exact E|contradiction]. }
  destruct X as [Uc Dc]. assert (Nc : ~ In c (keys x)).
  { intros Ic. destruct (H2 c Ic) as [->|(g & Eg & Iv)]; [congruence|]. assert (g = f) as -> by congruence. contradiction. }
  assert (Nac : a <> c) by (intros ->; contradiction).
  assert (Ns : forall j, In j (get_joins a x) -> ~ In c (j_tables j)) by (intros j Ij Ic; pose proof (H4 a j Ij c Ic); lia).
  split; [|auto]. constructor.
  - intros i Ii. apply keys_add in Ii as [->|Ii]; [exact Cc|apply H1; exact Ii].
  - intros i Ii. apply keys_add in Ii as [->|Ii]; [right; exists f; split; [exact Uc|left; reflexivity]|]. destruct (H2 i Ii) as [E|(g & A & C)]; [auto|]. right. exists g. split; [exact A|right; exact C].
  - intros g Ig Iv. apply (visit_inv f g v If Ig) in Iv as [->|Iv].
    + assert (N2 : forall j, In j (get_joins a (add_joins c (extend c f (get_joins a x)) x)) -> In (Path (j_tables j ++ [c]) (j_fkeys j ++ [f])) (get_joins c (add_joins c (extend c f (get_joins a x)) x))).
      { intros j Ij. rewrite get_add in Ij. destruct (tid_eqb_spec a c) as [E|_]; [contradiction|]. rewrite get_add, tid_eqb_refl. apply in_or_app. right. apply in_extend. exists j. auto. }
      destruct L as [[<- <-]|[<- <-]].
      * split; [apply keys_add; right; exact Ia|]. split; [apply keys_add; left; reflexivity|]. right. auto.
      * split; [apply keys_add; left; reflexivity|]. split; [apply keys_add; right; exact Ia|]. left. auto.
    + destruct (H3 g Ig Iv) as (A & C & E). split; [apply keys_add; right; exact A|]. split; [apply keys_add; right; exact C|].
      assert (Sm : forall i, In i (keys x) -> get_joins i (add_joins c (extend c f (get_joins a x)) x) = get_joins i x).
      { intros i Ii. rewrite get_add. destruct (tid_eqb_spec i c) as [->|_]; [contradiction|reflexivity]. }
      rewrite !Sm by assumption. exact E.
  - intros i j Ij d Id. rewrite get_add in Ij. destruct (tid_eqb_spec i c) as [->|_]; [|apply (H4 i j); assumption]. rewrite (get_not_key c x Nc) in Ij. cbn [app] in Ij.
    apply in_extend in Ij as (j0 & I0 & _ & ->). cbn [j_tables] in Id. apply in_app_iff in Id as [Id|[<-|[]]]; [|lia]. pose proof (H4 a j0 I0 d Id). lia.
  - intros i j Ij. rewrite get_add in Ij. destruct (tid_eqb_spec i c) as [->|_].
    + rewrite (get_not_key c x Nc) in Ij. cbn [app] in Ij. apply in_extend in Ij as (j0 & I0 & _ & ->). right. exists f, a, j0. split; [exact Uc|]. split; [exact L|]. split; [apply get_add_mono; exact I0|reflexivity].
    + destruct (H5 i j Ij) as [E|(g & a' & j0 & A & C & I0 & E)]; [auto|]. right. exists g, a', j0. split; [exact A|]. split; [exact C|]. split; [apply get_add_mono; exact I0|exact E].
Qed.
Lemma treed_base : treed [] [(b, [base_path (S k) (y_table q) (y_pkey q)])].
Proof.
  constructor.
  - intros i [<-|[]]. constructor.
  - intros i [<-|[]]. auto.
  - intros f _ [].
  - intros i j I c Ic. apply base_joins in I as [-> ->]. destruct Ic as [<-|[]]. lia.
  - intros i j I. apply base_joins in I as [-> _]. auto.
Qed.
Definition backed (v : list nat) (todo : list fkey) (x : joins) : Prop :=
  treed v x /\ (forall f, In f todo -> In f (all_fks cat) /\ In (f_to f) (keys x)) /\ (forall f, In f (all_fks cat) -> In (f_to f) (keys x) -> In (f_num f) v \/ In f todo)
  /\ forall f, In f (all_fks cat) -> In (f_num f) v -> up (f_from f) = Some f.
Definition forwarded (v : list nat) (todo : list fkey) (x : joins) : Prop :=
  treed v x /\ (forall f, In f todo -> In f (all_fks cat) /\ In (f_from f) (keys x)) /\ (forall f, In f (all_fks cat) -> In (f_from f) (keys x) -> In (f_num f) v \/ In f todo).
Lemma backed_found fuel v' x' : backward fuel cat (rev (referenced_by cat b)) [] [(b, [base_path (S k) (y_table q) (y_pkey q)])] = Found (v', x') -> backed v' [] x'.
Proof.
  assert (RI : forall f i, In f (rev (referenced_by cat i)) <-> In f (all_fks cat) /\ f_to f = i).
  { intros f i. rewrite <- in_rev. unfold referenced_by. rewrite filter_In. apply and_iff_compat_l. destruct (tid_eqb_spec (f_to f) i); split; congruence. }
  intros E. refine (backward_ind cat backed _ _ _ _ _ _ _ _ _ E).
  - intros f td v x (H1 & H2 & H3 & H4) Es. apply seen_in in Es. split; [exact H1|]. split; [intros g Ig; apply H2; right; exact Ig|]. split; [|exact H4].
    intros g Ig Ik. destruct (H3 g Ig Ik) as [Iv|[<-|It]]; auto.
  - intros f td v x (H1 & H2 & H3 & H4) Es. assert (Nv : ~ In (f_num f) v) by (intros I; apply seen_in in I; congruence). destruct (H2 f (or_introl eq_refl)) as [If Ik].
    destruct (treed_step v x f (f_to f) (f_from f) H1 If Nv Ik) as (T & U & N); [right; auto|]. split; [exact T|]. split; [|split].
    + intros g Ig. apply in_app_iff in Ig as [Ig|Ig].
      * apply RI in Ig as [A C]. split; [exact A|]. apply keys_add. left. exact C.
      * destruct (H2 g (or_intror Ig)) as [A C]. split; [exact A|]. apply keys_add. right. exact C.
    + intros g Ig Ig'. apply keys_add in Ig' as [C|Ig']; [right; apply in_or_app; left; apply RI; auto|]. destruct (H3 g Ig Ig') as [A|[<-|A]]; [left; right; exact A|left; left; reflexivity|right; apply in_or_app; right; exact A].
    + intros g Ig Iv. apply (visit_inv f g v If Ig) in Iv as [->|Iv]; [exact U|apply H4; assumption].
  - split; [exact treed_base|]. split; [|split].
    + intros f I. apply RI in I as [A C]. split; [exact A|]. left. symmetry. exact C.
    + intros f I [C|[]]. right. apply RI. auto.
    + intros f _ [].
Qed.
Lemma forwarded_found fuel todo v x v' x' : forwarded v todo x -> forward fuel cat todo v x = Found (v', x') -> forwarded v' [] x'.
Proof.
  intros S0 E. refine (forward_ind cat forwarded _ _ _ _ _ _ _ _ S0 E).
  - intros f td v0 y (H1 & H2 & H3) Es. apply seen_in in Es. split; [exact H1|]. split; [intros g Ig; apply H2; right; exact Ig|].
    intros g Ig Ik. destruct (H3 g Ig Ik) as [Iv|[<-|It]]; auto.
  - intros f td v0 y t (H1 & H2 & H3) Es Et. assert (Nv : ~ In (f_num f) v0) by (intros I; apply seen_in in I; congruence). destruct (H2 f (or_introl eq_refl)) as [If Ik].
    destruct (treed_step v0 y f (f_from f) (f_to f) H1 If Nv Ik) as (T & U & N); [left; auto|]. split; [exact T|].
    assert (FI : forall g, In g (rev (t_fks t)) <-> In g (all_fks cat) /\ f_from g = f_to f). { intros g. rewrite <- in_rev, <- (fks_of_in cat CO). unfold fks_of. rewrite Et. reflexivity. }
    split.
    + intros g Ig. apply in_app_iff in Ig as [Ig|Ig].
      * apply FI in Ig as [A C]. split; [exact A|]. apply keys_add. left. exact C.
      * destruct (H2 g (or_intror Ig)) as [A C]. split; [exact A|]. apply keys_add. right. exact C.
    + intros g Ig Ig'. apply keys_add in Ig' as [C|Ig']; [right; apply in_or_app; left; apply FI; auto|]. destruct (H3 g Ig Ig') as [A|[<-|A]]; [left; right; exact A|left; left; reflexivity|right; apply in_or_app; right; exact A].
Qed.
Lemma tree_found : exists v, forwarded v [] m /\ forall i r, related D cat q i r -> witness m i r.
Proof.
  destruct FD as [_ F]. unfold subset_joins in F. destruct (y_extended q) eqn:Ex.
  - destruct (backward _ _ _ _ _) as [[v m1]| |] eqn:Eb; try discriminate. destruct (forward _ _ _ _ _) as [[v2 m2]| |] eqn:Ef; try discriminate. injection F as ->.
    pose proof (backed_found _ _ _ Eb) as (T & _ & Cv & Ub'). exists v2. split.
    + apply (forwarded_found _ _ _ _ _ _) in Ef; [exact Ef|]. split; [exact T|]. assert (FI : forall f, In f (rev (flat_map (fks_of cat) (sort_tids (map fst m1)))) <-> In f (all_fks cat) /\ In (f_from f) (keys m1)).
      { intros f. rewrite <- in_rev, in_flat_map. split.
        - intros (i & Ii & I). apply (proj1 (sort_tids_in _ _)) in Ii. apply (fks_of_in cat CO) in I as [A <-]. auto.
        - intros [A C]. exists (f_from f). split; [apply (proj2 (sort_tids_in _ _)); exact C|]. apply (fks_of_in cat CO). auto. }
      split; [intros f I; apply FI; exact I|]. intros f I Ik. right. apply FI. auto.
    + assert (G1 : good cat (S k) (y_table q) (y_pkey q) m1).
      { apply (backward_good cat (S k) (y_table q) (y_pkey q)) in Eb; [tauto|apply good_base|constructor|]. intros f I. apply in_rev, filter_In in I as [A E]. destruct (tid_eqb_spec (f_to f) b) as [E'|]; [|discriminate E]. split; [exact A|]. left. symmetry. exact E'. }
      intros i r H. assert (W : witness m1 i r).
      { induction H as [rec r Dr Ir K|f r r' _ If H IH Dr Rf].
        - apply (selected_witness m1 rec); auto. apply (backward_mono _ _ _ _ _ _ Eb). exact start_base.
        - destruct IH as (j & e & Ij & Al & Sm). pose proof (get_keys _ _ _ Ij) as Ik. destruct (Cv f If Ik) as [Iv|[]]. destruct (r_visited _ _ T f If Iv) as (Kf & _ & Or). pose proof (Ub' f If Iv) as Uf.
          assert (Cf : connected cat b (f_from f)) by (apply (r_con _ _ T); exact Kf).
          assert (Dp : depth (f_from f) = S (depth (f_to f))).
          { destruct (UT f If Cf) as [[_ A]|[A A2]]; [exact A|]. exfalso. destruct Or as [[_ Pr]|[_ Pr]].
            - pose proof (r_depth _ _ T _ _ (Pr j Ij) (f_to f)) as X. cbn [j_tables] in X. specialize (X (in_or_app _ _ _ (or_introl (vpath_last _ _ _ _ _ _ _ (g_paths _ _ _ _ _ G1 _ _ Ij))))). lia.
            - pose proof (r_prefix _ _ T _ _ Ij) as [E0|(g & a & j0 & Eg & L & I0 & _)]; [congruence|]. assert (g = f) as -> by congruence.
              destruct L as [[<- _]|[L1 L2]]; [|rewrite L1, L2 in A2; rewrite <- L1 in A2 at 1; lia].
              pose proof (r_prefix _ _ T _ _ I0) as [E1|(g & a & j1 & Eg1 & L & I1 & E1)]; [congruence|]. assert (g = f) as -> by congruence. subst j0.
              pose proof (r_depth _ _ T _ _ I0 a) as X. cbn [j_tables] in X. specialize (X (in_or_app _ _ _ (or_introl (vpath_last _ _ _ _ _ _ _ (g_paths _ _ _ _ _ G1 _ _ I1))))).
              destruct L as [[L1 L2]|[L1 L2]]; [rewrite L2 in A2; lia|]. rewrite <- L1 in X. lia. }
          destruct Or as [[_ Pr]|[U2 _]].
          + apply (witness_snoc m1 f (f_to f) (f_from f) j e r' r); auto.
            * exact (g_paths _ _ _ _ _ G1 _ _ Ij).
            * right. auto.
            * intros I. pose proof (r_depth _ _ T _ _ Ij _ I). lia.
            * split; [|auto]. intros [E1 E2]. rewrite E1 in Dp. lia.
          + exfalso. destruct (UT f If Cf) as [[A A2]|[A A2]]; [|lia].
            pose proof (r_prefix _ _ T _ _ Ij) as [E0|(g & a & j0 & Eg & L & I0 & E0)]; [congruence|]. assert (g = f) as -> by congruence. subst j.
            pose proof (r_depth _ _ T _ _ Ij a) as X. cbn [j_tables] in X. specialize (X (in_or_app _ _ _ (or_introl (vpath_last _ _ _ _ _ _ _ (g_paths _ _ _ _ _ G1 _ _ I0))))).
            destruct L as [[L1 L2]|[L1 L2]]; [rewrite <- L1 in X; lia|rewrite L2 in A2; lia]. }
      destruct W as (j & e & Ij & W). exists j, e. split; [exact (forward_mono _ _ _ _ _ _ Ef _ _ Ij)|exact W].
  - destruct (forward _ _ _ _ _) as [[v2 m2]| |] eqn:Ef; try discriminate. injection F as ->. exists v2. split.
    + apply (forwarded_found _ _ _ _ _ _) in Ef; [exact Ef|]. split; [exact treed_base|]. rewrite (t_fks_fks_of cat (y_table q) CO y_in). split.
      * intros f I. apply in_rev in I. apply (fks_of_in cat CO) in I as [A E]. split; [exact A|]. left. symmetry. exact E.
      * intros f I [E|[]]. right. apply in_rev. rewrite rev_involutive. apply (fks_of_in cat CO). auto.
    + intros i r [rec r' Dr Ir K|f r' r'' X If H Dr Rf]; [|congruence]. apply (selected_witness m rec); auto. exact found_base.
Qed.
Lemma tree_required i r : required D cat q i r -> witness m i r.
Proof.
  destruct tree_found as (v & (T & _ & Cv) & RW). intros H. induction H as [i r H|f r r' If H IH Dr Rf]; [apply RW; exact H|].
  destruct IH as (j & e & Ij & Al & Sm). destruct (path_tables cat CO CL qs Q k q m _ j FD Ij) as (VP & Ik & _). destruct (Cv f If Ik) as [Iv|[]].
  destruct (r_visited _ _ T f If Iv) as (_ & _ & Or). pose proof (r_con _ _ T _ Ik) as Cf.
  assert (Cases : (up (f_from f) = Some f /\ depth (f_from f) = S (depth (f_to f))) \/ (depth (f_to f) = S (depth (f_from f)) /\ forall j, In j (get_joins (f_from f) m) -> In (Path (j_tables j ++ [f_to f]) (j_fkeys j ++ [f])) (get_joins (f_to f) m))).
  { destruct (UT f If Cf) as [A|[A A2]]; [left; exact A|]. destruct Or as [[B1 B2]|[_ B2]]; [|right; auto]. exfalso.
    pose proof (r_prefix _ _ T _ _ Ij) as [E0|(g & a & j0 & Eg & L & I0 & E0)]; [congruence|]. assert (g = f) as -> by congruence. subst j.
    destruct (path_tables cat CO CL qs Q k q m _ j0 FD I0) as (VP0 & _ & _).
    pose proof (r_depth _ _ T _ _ Ij a) as X. cbn [j_tables] in X. specialize (X (in_or_app _ _ _ (or_introl (vpath_last _ _ _ _ _ _ _ VP0)))).
    destruct L as [[L1 L2]|[L1 L2]]; [rewrite L2 in A2; lia|rewrite <- L1 in X; lia]. }
  destruct Cases as [[Uf Dp]|[Dp Pr]].
  - (* back to the parent *)
    pose proof (r_prefix _ _ T _ _ Ij) as [E0|(g & a & j0 & Eg & L & I0 & E0)]; [congruence|]. assert (g = f) as -> by congruence. subst j. apply along_prefix in Al as (Al & Db & Rf').
    assert (a = f_to f) as -> by (destruct L as [[L1 L2]|[L1 L2]]; [exfalso; rewrite L2 in Dp; lia|congruence]).
    exists j0, e. split; [exact I0|]. assert (Al0 : along D k q j0 e) by (destruct j0; exact Al). split; [exact Al0|].
    apply (do_refs _ _ OK f r); auto.
    + destruct Al0 as (_ & A2 & _). apply A2. destruct (path_tables cat CO CL qs Q k q m _ j0 FD I0) as (VP0 & _ & _). exact (vpath_last _ _ _ _ _ _ _ VP0).
    + apply (refers_same f _ _ _ _ (same_sym _ _ Sm) (same_refl _) Rf').
  - apply (witness_snoc m f (f_from f) (f_to f) j e r r'); auto.
    + left. auto.
    + intros I. pose proof (r_depth _ _ T _ _ Ij _ I). lia.
    + split; [auto|]. intros [E1 E2]. rewrite E1 in Dp. lia.
Qed.
End Tree.
End Complete.

(** ** Together *)
Section Together.
Context {V : Type} (cat : catalog) (CO : catalog_ok cat) (CL : closed cat) (D : db V) (OK : db_ok cat D) (qs : list (squery (option V))) (Q : queries_ok cat qs).
Lemma related_row q i r : related D cat q i r -> D i r.
Proof. intros H. destruct H; assumption. Qed.
Lemma required_row q i r : required D cat q i r -> D i r.
Proof. intros H. destruct H; [eapply related_row; eassumption|assumption]. Qed.
Lemma subsets_found : exists ss, add_subsets cat qs empty_subsetter = Found ss.
Proof. destruct (add_subsets_describes cat CO CL qs Q) as (ss & E & _). eauto. Qed.
Context (ss : subsetter (option V)) (ES : add_subsets cat qs empty_subsetter = Found ss).
Lemma subsets_describe : describes cat qs ss.
Proof. destruct (add_subsets_describes cat CO CL qs Q) as (ss' & E & H). rewrite ES in E. injection E as <-. exact H. Qed.
Lemma query_found q : In q qs -> exists k m, found cat qs k q m.
Proof.
  intros I. apply In_nth_error in I as (k & Ek). destruct subsets_describe as (_ & _ & _ & Ex). destruct (Ex k q Ek) as (m & F). eauto.
Qed.
Lemma sound i r : keyed cat i -> dumped D cat ss i r -> needed D cat qs i r.
Proof. intros (t & pk & It & <- & Ip). apply (dumped_needed cat CO D CL qs ss Q subsets_describe OK t pk); assumption. Qed.
Lemma selected_dumped q rec r : In q qs -> D (t_id (y_table q)) r -> In rec (y_records q) -> same_key (y_pkey q) r (row_of (y_pkey q) rec) -> dumped D cat ss (t_id (y_table q)) r.
Proof.
  intros Iq Dr Ir K. destruct (query_found q Iq) as (k & m & F). destruct (Q q Iq) as [It Ip].
  apply (witness_dumped cat CO CL D OK qs ss Q subsets_describe k q m F _ _ r It Ip Dr). apply (selected_witness cat CO D qs Q k q m F m rec r); auto. exact (found_base cat qs k q m F).
Qed.
(** Shapes for which everything needed is found. *)
Definition shaped (q : squery (option V)) : Prop := (y_extended q = false /\ entered_once cat (t_id (y_table q))) \/ tree cat (t_id (y_table q)).
Lemma required_dumped q i r : shaped q -> In q qs -> keyed cat i -> required D cat q i r -> dumped D cat ss i r.
Proof.
  intros Sh Iq (t & pk & It & <- & Ip) H. destruct (query_found q Iq) as (k & m & F). apply (witness_dumped cat CO CL D OK qs ss Q subsets_describe k q m F t pk r It Ip (required_row _ _ _ H)).
  destruct Sh as [[PL EO]|(up & depth & Ub & UT)].
  - exact (once_required cat CO CL D qs Q k q m F EO PL _ _ H).
  - exact (tree_required cat CO CL D OK qs Q k q m F up depth Ub UT _ _ H).
Qed.
Lemma complete i r : (forall q, In q qs -> shaped q) -> keyed cat i -> needed D cat qs i r -> dumped D cat ss i r.
Proof. intros Sh K (q & Iq & H). apply (required_dumped q); auto. Qed.
Lemma shaped_intact : (forall q, In q qs -> shaped q) -> intact D cat ss.
Proof.
  intros Sh f r r' If K H Dr Rf. apply complete; auto.
  assert (Kf : keyed cat (f_from f)).
  { pose proof (dumped_table cat D ss _ _ H) as X. destruct (from_in_tables cat CO f If) as (t & It & E & _). rewrite <- E in *. rewrite (schema_fixed cat CO t It) in X. exact X. }
  destruct (sound _ _ Kf H) as (q & Iq & Rq). exists q. split; [exact Iq|]. apply required_referee with (r := r); assumption.
Qed.
End Together.
