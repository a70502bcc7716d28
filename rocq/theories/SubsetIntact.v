(** Which rows the queries need, and that they are dumped. *)
From Verif Require Import GoStr GoStrFacts ModelSubset SpecSubset SubsetFacts SubsetRows.

(** ** Rows *)
Section RowFacts.
Context {V : Type}.
Lemma equal_trans (a b c : option V) : equal a b -> equal b c -> equal a c.
Proof. intros (v & -> & ->) (w & E & ->). injection E as ->. exists w. auto. Qed.
Lemma refers_same f (r r1 s s1 : row V) : same r r1 -> same s s1 -> refers f r s -> refers f r1 s1.
Proof. intros E1 E2 H c c' I. rewrite <- (E1 c), <- (E2 c'). exact (H c c' I). Qed.
Lemma same_refl (r : row V) : same r r. Proof. intros c. reflexivity. Qed.
Lemma same_sym (r s : row V) : same r s -> same s r. Proof. intros E c. symmetry. apply E. Qed.
Lemma same_trans (r s t : row V) : same r s -> same s t -> same r t. Proof. intros E1 E2 c. rewrite E1. apply E2. Qed.
Lemma same_key_same key (r r1 s s1 : row V) : same r r1 -> same s s1 -> same_key key r s -> same_key key r1 s1.
Proof. intros E1 E2 H c I. rewrite <- (E1 c), <- (E2 c). exact (H c I). Qed.
Lemma combine_diag {A} (l : list A) x y : In (x, y) (combine l l) <-> x = y /\ In x l.
Proof. induction l as [|a l IH]; cbn [combine In]; [tauto|]. rewrite IH. split; [intros [E|[-> I]]; [injection E as -> ->|]; auto|]. intros [-> [->|I]]; auto. Qed.
Lemma related_same cat (D : db V) q i r r' : related D cat q i r -> D i r' -> same r r' -> related D cat q i r'.
Proof.
  intros H. revert r'. destruct H as [rec r Dr I K|f r r0 X I H Dr Rf]; intros r' Dr' E.
  - apply related_selected with (rec := rec); [exact Dr'|exact I|]. apply (same_key_same _ _ _ _ _ E (same_refl _) K).
  - apply related_referrer with (r' := r0); auto. apply (refers_same f _ _ _ _ E (same_refl _) Rf).
Qed.
Lemma required_same cat (D : db V) q i r r' : required D cat q i r -> D i r' -> same r r' -> required D cat q i r'.
Proof.
  intros H. revert r'. destruct H as [i r H|f r r0 I H Dr Rf]; intros r' Dr' E.
  - apply required_related. apply (related_same cat D q i r); assumption.
  - apply required_referee with (r := r); auto. apply (refers_same f _ _ _ _ (same_refl _) E Rf).
Qed.
Definition upd (e : @env V) (i : tid) (r : row V) : env := fun k => if tid_eqb k i then r else e k.
Lemma upd_eq e i r : upd e i r i = r. Proof. unfold upd. rewrite tid_eqb_refl. reflexivity. Qed.
Lemma upd_ne e i r k : k <> i -> upd e i r k = e k. Proof. unfold upd. destruct (tid_eqb_spec k i); [contradiction|reflexivity]. Qed.
End RowFacts.

Section Paths.
Context {V : Type} (cat : catalog) (CO : catalog_ok cat) (D : db V) (k : nat) (q : squery (option V)) (It : In (y_table q) (c_tables cat)).
Notation base := (t_id (y_table q)).
Lemma along_prefix ts fs b f e : along D k q (Path (ts ++ [b]) (fs ++ [f])) e -> along D k q (Path ts fs) e /\ D b (e b) /\ refers f (e (f_from f)) (e (f_to f)).
Proof.
  intros (A & T & F). cbn [j_tables j_fkeys] in *. split.
  - split; [exact A|]. cbn [j_tables j_fkeys]. split; intros x Ix; [apply T|apply F]; apply in_or_app; left; exact Ix.
  - split; [apply T|apply F]; apply in_or_app; right; left; reflexivity.
Qed.
(** Changing the row of a table not on the path. *)
Lemma vpath_fks ts fs a : vpath cat (S k) (y_table q) (y_pkey q) ts fs a -> forall f, In f fs -> f = base_fkey (S k) (y_table q) (y_pkey q) \/ (In f (all_fks cat) /\ In (f_from f) ts /\ In (f_to f) ts).
Proof.
  induction 1 as [|ts fs a f b H IH L I N]; intros g Ig.
  - destruct Ig as [<-|[]]. left. reflexivity.
  - apply in_app_iff in Ig as [Ig|[<-|[]]].
    + destruct (IH g Ig) as [E|(A & C & E)]; [left; exact E|]. right. split; [exact A|]. split; apply in_or_app; left; assumption.
    + right. split; [exact I|]. pose proof (vpath_last _ _ _ _ _ _ _ H) as La. destruct L as [[<- <-]|[<- <-]]; split; apply in_or_app; solve [left; exact La|right; left; reflexivity].
Qed.
Lemma along_upd j i e b r : vpath cat (S k) (y_table q) (y_pkey q) (j_tables j) (j_fkeys j) i -> ~ In b (j_tables j) -> b <> result_name (S k) -> along D k q j e -> along D k q j (upd e b r).
Proof.
  intros P N Nb ((rec & Ir & Er) & T & F). split; [|split].
  - exists rec. split; [exact Ir|]. rewrite upd_ne by congruence. exact Er.
  - intros x Ix. rewrite upd_ne by congruence. apply T. exact Ix.
  - intros f If. specialize (F f If). destruct (vpath_fks _ _ _ P f If) as [E|(_ & A & C)].
    + assert (Bi : In base (j_tables j)).
      { clear - P. induction P as [|ts fs a f b H IH L I N]; [left; reflexivity|apply in_or_app; left; exact IH]. }
      subst f. unfold base_fkey in *. cbn [f_from f_to] in *. rewrite !upd_ne by congruence. exact F.
    + rewrite !upd_ne by congruence. exact F.
Qed.
(** A path prolonged by a row. *)
Lemma along_snoc j i e b f r : vpath cat (S k) (y_table q) (y_pkey q) (j_tables j) (j_fkeys j) i -> link f i b -> ~ In b (j_tables j) -> b <> result_name (S k) -> along D k q j e -> D b r ->
  (f_from f = i /\ f_to f = b -> refers f (e i) r) -> (f_to f = i /\ f_from f = b -> refers f r (e i)) -> along D k q (Path (j_tables j ++ [b]) (j_fkeys j ++ [f])) (upd e b r).
Proof.
  intros P L N Nb A Dr H1 H2. assert (Ni : i <> b) by (intros ->; apply N; exact (vpath_last _ _ _ _ _ _ _ P)).
  destruct (along_upd j i e b r P N Nb A) as (A1 & A2 & A3). split; [exact A1|]. cbn [j_tables j_fkeys]. split.
  - intros x Ix. apply in_app_iff in Ix as [Ix|[<-|[]]]; [apply A2; exact Ix|]. rewrite upd_eq. exact Dr.
  - intros g Ig. apply in_app_iff in Ig as [Ig|[<-|[]]]; [apply A3; exact Ig|]. destruct L as [[E1 E2]|[E1 E2]].
    + rewrite E1, E2, upd_eq, upd_ne by exact Ni. apply H1. auto.
    + rewrite E1, E2, upd_eq, upd_ne by exact Ni. apply H2. auto.
Qed.
(** The path of the base table. *)
Lemma along_base rec r : D base r -> In rec (y_records q) -> same_key (y_pkey q) r (row_of (y_pkey q) rec) ->
  along D k q (base_path (S k) (y_table q) (y_pkey q)) (upd (fun _ => row_of (y_pkey q) rec) base r).
Proof.
  intros Dr Ir K. assert (N : result_name (S k) <> base) by (intros E; exact (co_results _ CO _ (S k) It (eq_sym E))). unfold along, base_path. cbn [j_tables j_fkeys]. split; [|split].
  - exists rec. split; [exact Ir|]. rewrite upd_ne by exact N. reflexivity.
  - intros i [<-|[]]. rewrite upd_eq. exact Dr.
  - intros f [<-|[]] c c' I. cbn [f_from f_to f_cols f_rcols] in *. rewrite upd_eq, upd_ne by exact N. apply combine_diag in I as [-> I]. apply equal_sym. exact (K c' I).
Qed.
End Paths.

(** ** What is dumped is needed *)
Section Sound.
Context {V : Type} (cat : catalog) (CO : catalog_ok cat) (D : db V).
(** A property of paths kept by the search. *)
Lemma forward_paths (R : tid -> join_path -> Prop) fuel todo v m v' m' :
  (forall f j, In f (all_fks cat) -> ~ In (f_to f) (j_tables j) -> R (f_from f) j -> R (f_to f) (Path (j_tables j ++ [f_to f]) (j_fkeys j ++ [f]))) ->
  (forall i j, In j (get_joins i m) -> R i j) -> incl todo (all_fks cat) -> forward fuel cat todo v m = Found (v', m') -> forall i j, In j (get_joins i m') -> R i j.
Proof.
  intros St B Hi E. pose (P := fun (v : list nat) (td : list fkey) (x : joins) => incl td (all_fks cat) /\ forall i j, In j (get_joins i x) -> R i j).
  assert (X : P v' [] m'); [|exact (proj2 X)]. apply (forward_ind cat P) with (fuel := fuel) (todo := todo) (visited := v) (m := m); [| |split; assumption|exact E].
  - intros f td v0 x [H1 H2] _. split; [|exact H2]. intros g Ig. apply H1. right. exact Ig.
  - intros f td v0 x t [H1 H2] _ Et. split.
    + intros g Ig. apply in_app_iff in Ig as [Ig|Ig]; [|apply H1; right; exact Ig]. apply find_table_some in Et as [Ht _]. apply in_flat_map. exists t. split; [exact Ht|]. apply in_rev. exact Ig.
    + intros i j I. rewrite get_add in I. destruct (tid_eqb_spec i (f_to f)) as [->|N]; [|apply H2; exact I]. apply in_app_iff in I as [I|I]; [apply H2; exact I|].
      apply in_extend in I as (j0 & I0 & N0 & ->). apply St; [apply H1; left; reflexivity|exact N0|apply H2; exact I0].
Qed.
Lemma backward_paths (R : tid -> join_path -> Prop) fuel todo v m v' m' :
  (forall f j, In f (all_fks cat) -> ~ In (f_from f) (j_tables j) -> R (f_to f) j -> R (f_from f) (Path (j_tables j ++ [f_from f]) (j_fkeys j ++ [f]))) ->
  (forall i j, In j (get_joins i m) -> R i j) -> incl todo (all_fks cat) -> backward fuel cat todo v m = Found (v', m') -> forall i j, In j (get_joins i m') -> R i j.
Proof.
  intros St B Hi E. pose (P := fun (v : list nat) (td : list fkey) (x : joins) => incl td (all_fks cat) /\ forall i j, In j (get_joins i x) -> R i j).
  assert (X : P v' [] m'); [|exact (proj2 X)]. apply (backward_ind cat P) with (fuel := fuel) (todo := todo) (visited := v) (m := m); [| |split; assumption|exact E].
  - intros f td v0 x [H1 H2] _. split; [|exact H2]. intros g Ig. apply H1. right. exact Ig.
  - intros f td v0 x [H1 H2] _. split.
    + intros g Ig. apply in_app_iff in Ig as [Ig|Ig]; [|apply H1; right; exact Ig]. apply in_rev, filter_In in Ig. tauto.
    + intros i j I. rewrite get_add in I. destruct (tid_eqb_spec i (f_from f)) as [->|N]; [|apply H2; exact I]. apply in_app_iff in I as [I|I]; [apply H2; exact I|].
      apply in_extend in I as (j0 & I0 & N0 & ->). apply St; [apply H1; left; reflexivity|exact N0|apply H2; exact I0].
Qed.
Lemma base_joins k q i j : In j (get_joins i [(t_id (y_table q), [base_path (S k) (y_table q) (@y_pkey (option V) q)])]) -> i = t_id (y_table q) /\ j = base_path (S k) (y_table q) (y_pkey q).
Proof. unfold get_joins. cbn [find fst]. destruct (tid_eqb_spec (t_id (y_table q)) i) as [<-|N]; [|intros []]. intros [<-|[]]. auto. Qed.
Lemma path_required qs k q m i j e : queries_ok cat qs -> found cat qs k q m -> In j (get_joins i m) -> along D k q j e -> required D cat q i (e i).
Proof.
  intros Q [F1 F2] Ij A. assert (Iq : In q qs) by (apply nth_error_In in F1; exact F1). destruct (Q q Iq) as [Iy Ip]. revert i j Ij e A.
  assert (RB : forall i j, In j (get_joins i [(t_id (y_table q), [base_path (S k) (y_table q) (y_pkey q)])]) -> forall e, along D k q j e -> related D cat q i (e i)).
  { intros i j I e (A1 & A2 & A3). apply base_joins in I as [-> ->]. destruct A1 as (rec & Ir & Er). apply related_selected with (rec := rec); [apply A2; left; reflexivity|exact Ir|].
    intros c Ic. specialize (A3 (base_fkey (S k) (y_table q) (y_pkey q)) (or_introl eq_refl) c c). unfold base_fkey in A3. cbn [f_from f_to f_cols f_rcols] in A3. rewrite <- Er. apply equal_sym. apply A3. apply combine_diag. auto. }
  assert (SF : forall f j, In f (all_fks cat) -> ~ In (f_to f) (j_tables j) -> (forall e, along D k q j e -> required D cat q (f_from f) (e (f_from f))) ->
     forall e, along D k q (Path (j_tables j ++ [f_to f]) (j_fkeys j ++ [f])) e -> required D cat q (f_to f) (e (f_to f))).
  { intros f j If _ H e A. apply along_prefix in A as (A & Db & Rf). apply required_referee with (r := e (f_from f)); auto. }
  unfold subset_joins in F2. destruct (y_extended q) eqn:Ex.
  - destruct (backward _ _ _ _ _) as [[v m1]| |] eqn:Eb; try discriminate. destruct (forward _ _ _ _ _) as [[v2 m2]| |] eqn:Ef; try discriminate. injection F2 as <-.
    refine (forward_paths (fun i j => forall e, along D k q j e -> required D cat q i (e i)) _ _ _ _ _ _ SF _ _ Ef); [|intros f I; apply in_rev, in_flat_map in I as (i & _ & I); apply (fks_of_in cat CO) in I; tauto].
    intros i j I e A. apply required_related. revert i j I e A. refine (backward_paths (fun i j => forall e, along D k q j e -> related D cat q i (e i)) _ _ _ _ _ _ _ RB _ Eb); [|intros f I; apply in_rev, filter_In in I; tauto].
    intros f j If _ H e A. apply along_prefix in A as (A & Db & Rf). apply related_referrer with (r' := e (f_to f)); auto.
  - destruct (forward _ _ _ _ _) as [[v2 m2]| |] eqn:Ef; try discriminate. injection F2 as <-.
    refine (forward_paths (fun i j => forall e, along D k q j e -> required D cat q i (e i)) _ _ _ _ _ _ SF _ _ Ef); [intros i j I e A; apply required_related, (RB i j I e A)|].
    intros f I. apply in_rev in I. apply in_flat_map. exists (y_table q). auto.
Qed.
Context (CL : closed cat) (qs : list (squery (option V))) (ss : subsetter (option V)) (Q : queries_ok cat qs) (DS : describes cat qs ss) (OK : db_ok cat D).
Lemma dumped_table i r : dumped D cat ss i r -> keyed cat (if beqb (fst i) [] then c_cur cat else fst i, snd i).
Proof.
  intros (sq & E & _). unfold table_query in E. set (i' := (_, _)) in *. destruct (find_table cat i') as [t|] eqn:Et; [|discriminate E]. apply find_table_some in Et as [A C].
  destruct (t_pkey t) as [pk|] eqn:Ep; [|discriminate E]. exists t, pk. auto.
Qed.
Lemma dumped_required_at t pk r : In t (c_tables cat) -> t_pkey t = Some pk -> dumped D cat ss (t_id t) r -> exists k q m j e, found cat qs k q m /\ In j (get_joins (t_id t) m) /\ along D k q j e /\ same r (e (t_id t)) /\ required D cat q (t_id t) r.
Proof.
  intros A Ep H. apply (dumped_iff cat CO CL D qs ss Q DS t pk r A Ep) in H as (Dr & k & q & m & j & e & Fd & Ij & Al & K). exists k, q, m, j, e.
  split; [exact Fd|]. split; [exact Ij|]. split; [exact Al|]. assert (De : D (t_id t) (e (t_id t))).
  { destruct Al as (_ & A2 & _). apply A2. destruct (path_tables cat CO CL qs Q k q m (t_id t) j Fd Ij) as (P & _). exact (vpath_last _ _ _ _ _ _ _ P). }
  assert (Sm : same r (e (t_id t))) by (apply (do_key _ _ OK t pk); assumption). split; [exact Sm|].
  apply (required_same cat D q _ (e (t_id t))); [apply (path_required qs k q m _ j); assumption|exact Dr|apply same_sym; exact Sm].
Qed.
Lemma dumped_needed t pk r : In t (c_tables cat) -> t_pkey t = Some pk -> dumped D cat ss (t_id t) r -> needed D cat qs (t_id t) r.
Proof.
  intros A Ep H. destruct (dumped_required_at t pk r A Ep H) as (k & q & m & j & e & [F _] & _ & _ & _ & R). exists q. split; [apply nth_error_In in F; exact F|exact R].
Qed.
End Sound.
