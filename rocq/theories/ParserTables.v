(** Proofs about reading table structs: the checks of one table and the tables of a catalog. *)
From Coq Require Import Lia.
From Verif Require Import GoStr GoStrFacts ModelCatalog ModelCache SpecCache CacheFacts CopyFacts ModelDdl NormFacts
  ModelModifier ModifierFacts ModelDiff ModelDiffSql DiffLookup ModelGoTag ModelStructs ModelParser ParserFacts.

Local Arguments PRIMARY_KEY : simpl never.
Local Arguments FOREIGN_KEY : simpl never.
Local Arguments UNIQUE : simpl never.

(** ** The checks of one table *)
Definition has_col (t : table) (n : bytes) : Prop :=
  exists c, In c (tb_columns t) /\ col_name c = n /\ col_ignore c = false.
Definition col_keys (t : table) : list (bytes * bool) := map (fun c => (col_name c, col_ignore c)) (tb_columns t).
Lemma has_col_keys : forall t n, has_col t n <-> In (n, false) (col_keys t).
Proof.
  intros t n. unfold col_keys. rewrite in_map_iff. split.
  - intros (c & Hc & N & I). exists c. rewrite N, I. auto.
  - intros (c & E & Hc). injection E as N I. exists c. auto.
Qed.

Lemma get_column_total : forall c t n, pinv c t -> exists r, get_column c t n = Ok r.
Proof. intros c t n (I1 & _). exact (good_total _ _ _ _ _ _ n I1). Qed.
Lemma get_column_some : forall c t n i, pinv c t -> get_column c t n = Ok (Some i) ->
  exists x, nth_error (tb_columns t) i = Some x /\ col_name x = n /\ col_ignore x = false.
Proof.
  intros c t n i (I1 & _) H. destruct (at_pos_some _ _ _ _ _ H) as (M & x & Hx & Ix).
  destruct (proj1 I1 _ _ M) as (y & Hy & Ny & _). rewrite Hx in Hy. injection Hy as <-. eauto.
Qed.
Lemma get_column_has : forall c t n r, pinv c t -> get_column c t n = Ok r -> (has_col t n <-> r <> None).
Proof.
  intros c t n r I H. pose proof (good_found _ _ _ _ _ _ n (proj1 I) Logic.I) as F. unfold get_column in H. cbn beta in F. rewrite H in F.
  destruct r as [i|]; cbn in F.
  - split; [congruence|]. intros _. destruct (get_column_some c t n i I H) as (x & Hx & Nx & Ix).
    exists x. split; [eapply nth_error_In; exact Hx|auto].
  - split; [|congruence]. intros (x & Hx & Nx & Ix). rewrite (F x Hx Nx) in Ix. discriminate.
Qed.

Lemma check_columns_ok : forall p l, pinv (pa_cache p) (pa_table p) ->
  exists cs, check_columns p l = Ok cs /\ (cs = [] <-> Forall (has_col (pa_table p)) l).
Proof.
  intros p l I. induction l as [|n l (cs & E & H)]; [exists []; split; [reflexivity|split; auto]|].
  cbn [check_columns]. destruct (get_column_total _ _ n I) as (r & R). rewrite R, E. cbn [bindr].
  pose proof (get_column_has _ _ _ _ I R) as G. destruct r as [i|].
  - exists cs. split; [reflexivity|]. rewrite H. split; [constructor; [apply G; discriminate|assumption]|].
    intro F. inversion F; assumption.
  - eexists. split; [reflexivity|]. split; [discriminate|]. intro F. inversion F; subst.
    exfalso. apply (proj1 G); auto.
Qed.

(** A check may change the flags and the types of columns. *)
Record check (p p' : parser) : Prop := Check {
  c_step : step true p p';
  c_cons : tb_constraints (pa_table p') = tb_constraints (pa_table p);
  c_ixs : tb_indexes (pa_table p') = tb_indexes (pa_table p);
  c_keys : col_keys (pa_table p') = col_keys (pa_table p);
  c_ignore : tb_ignore (pa_table p') = tb_ignore (pa_table p)
}.
Lemma check_refl : forall p, pinv (pa_cache p) (pa_table p) -> check p p.
Proof. intros p I. constructor; auto. apply step_refl. exact I. Qed.
Lemma check_trans : forall p1 p2 p3, check p1 p2 -> check p2 p3 -> check p1 p3.
Proof. intros p1 p2 p3 [A1 A2 A3 A4 A5] [B1 B2 B3 B4 B5]. constructor; try congruence. eapply step_trans; eassumption. Qed.

Lemma map_change : forall {A K} (g : A -> K) (l : list A) i f, (forall a, g (f a) = g a) -> map g (change_nth i f l) = map g l.
Proof.
  intros A K g l i f H. apply nth_error_same. intro j. rewrite !nth_error_map. destruct (Nat.eq_dec i j) as [->|N].
  - destruct (nth_error l j) as [a|] eqn:E.
    + rewrite (change_nth_at _ _ _ _ E). cbn. rewrite H. reflexivity.
    + unfold change_nth. rewrite E. rewrite E. reflexivity.
  - rewrite change_nth_other by exact N. reflexivity.
Qed.
Lemma check_columns_on : forall p i f, pinv (pa_cache p) (pa_table p) ->
  (forall c, col_name (f c) = col_name c) -> (forall c, col_ignore (f c) = col_ignore c) -> check p (on_columns i f p).
Proof.
  intros p i f I N G. constructor; auto; [apply step_columns; assumption|].
  unfold col_keys. cbn. apply map_change. intro a. rewrite N, G. reflexivity.
Qed.
Lemma check_reports : forall p cs, pinv (pa_cache p) (pa_table p) -> check p (reports cs p).
Proof. intros p cs I. constructor; auto. apply step_reports. exact I. Qed.

Definition uncited (x : constraint) : Prop := con_ignore x = false /\ con_type x = FOREIGN_KEY /\ con_refcolumns x = [].

Lemma check_constraint_ok : forall d p x, pinv (pa_cache p) (pa_table p) ->
  match check_constraint d p x with
  | Ok p' => check p p' /\ (pa_reports p' = pa_reports p -> con_ignore x = false -> Forall (has_col (pa_table p)) (con_columns x))
  | Err => False
  | Panic => uncited x
  end.
Proof.
  intros d p x I. unfold check_constraint. destruct (con_ignore x) eqn:Ig.
  { split; [apply check_refl; exact I|discriminate]. }
  destruct (check_columns_ok p (con_columns x) I) as (cs & E & H). rewrite E. cbn [bindr].
  assert (R : check p (reports cs p) /\ (pa_reports (reports cs p) = pa_reports p -> false = false -> Forall (has_col (pa_table p)) (con_columns x))).
  { split; [apply check_reports; exact I|]. intros Q _. apply H. cbn in Q.
    apply (app_inv_head (pa_reports p)). rewrite app_nil_r. exact Q. }
  destruct cs as [|c0 cs]; [|exact R]. pose proof (proj1 H eq_refl) as F.
  destruct (con_columns x) as [|n [|]]; try exact R.
  destruct (get_column_total _ _ n I) as (r & G). rewrite G. cbn [bindr].
  pose proof (get_column_has _ _ _ _ I G) as Hr. inversion F as [|? ? Hn]; subst.
  destruct r as [i|]; [|exfalso; apply (proj1 Hr Hn); reflexivity].
  destruct (beqb (con_type x) PRIMARY_KEY).
  { split; [|auto]. apply check_columns_on; [exact I|..]; intro c; destruct (_ && _); reflexivity. }
  destruct (beqb (con_type x) UNIQUE).
  { split; [|auto]. apply check_columns_on; [exact I|..]; intro c; reflexivity. }
  destruct (beqb (con_type x) FOREIGN_KEY) eqn:T; [|split; [apply check_refl; exact I|auto]].
  apply beqb_eq in T. destruct (con_refcolumns x) eqn:Er; [unfold uncited; auto|]. split; [apply check_refl; exact I|auto].
Qed.

Lemma reports_grow : forall p p', step true p p' -> pa_reports p' = pa_reports p \/ exists c cs, pa_reports p' = pa_reports p ++ c :: cs.
Proof.
  intros p p' S. destruct (s_reports _ _ _ S) as ([|c cs] & E); [left; rewrite E; apply app_nil_r|eauto].
Qed.
Lemma reports_between : forall p1 p2 p3, (exists a, pa_reports p2 = pa_reports p1 ++ a) -> (exists b, pa_reports p3 = pa_reports p2 ++ b) ->
  pa_reports p3 = pa_reports p1 -> pa_reports p2 = pa_reports p1 /\ pa_reports p3 = pa_reports p2.
Proof.
  intros p1 p2 p3 (a & A) (b & B) E. rewrite B, A, <- app_assoc in E.
  assert (Z : a ++ b = []) by (apply (app_inv_head (pa_reports p1)); rewrite app_nil_r; exact E).
  apply app_eq_nil in Z. destruct Z as (-> & ->). rewrite app_nil_r in *. auto.
Qed.

Lemma has_col_check : forall p p' n, check p p' -> (has_col (pa_table p') n <-> has_col (pa_table p) n).
Proof. intros p p' n C. rewrite !has_col_keys, (c_keys _ _ C). reflexivity. Qed.

Lemma check_constraints_ok : forall d l p, pinv (pa_cache p) (pa_table p) ->
  match foldr (check_constraint d) p l with
  | Ok p' => check p p'
      /\ (pa_reports p' = pa_reports p -> forall x, In x l -> con_ignore x = false -> Forall (has_col (pa_table p)) (con_columns x))
  | Err => False
  | Panic => Exists uncited l
  end.
Proof.
  intros d. induction l as [|x l IH]; intros p I; [split; [apply check_refl; exact I|intros _ x []]|].
  cbn [foldr]. pose proof (check_constraint_ok d p x I) as S.
  destruct (check_constraint d p x) as [p1| |]; cbn [bindr]; [|contradiction|left; exact S].
  destruct S as (C1 & H1). pose proof (IH p1 (s_inv _ _ _ (c_step _ _ C1))) as S2.
  destruct (foldr (check_constraint d) p1 l) as [p2| |]; [|contradiction|right; exact S2].
  destruct S2 as (C2 & H2). split; [eapply check_trans; eassumption|].
  intros R y [<-|Hy] Iy; destruct (reports_between p p1 p2 (s_reports _ _ _ (c_step _ _ C1)) (s_reports _ _ _ (c_step _ _ C2)) R) as (R1 & R2); [auto|].
  eapply Forall_impl; [|exact (H2 R2 y Hy Iy)]. intros n Hn. apply (has_col_check _ _ n C1). exact Hn.
Qed.

Lemma check_indexes_ok : forall l p, pinv (pa_cache p) (pa_table p) ->
  exists p', foldr check_index p l = Ok p' /\ check p p'
      /\ (pa_reports p' = pa_reports p -> forall x, In x l -> ix_ignore x = false -> Forall (has_col (pa_table p)) (ix_columns x)).
Proof.
  induction l as [|x l IH]; intros p I; [exists p; split; [reflexivity|split; [apply check_refl; exact I|intros _ x []]]|].
  cbn [foldr]. unfold check_index at 1. destruct (ix_ignore x) eqn:Ig; cbn [bindr].
  { destruct (IH p I) as (p' & E & C & H). exists p'. split; [exact E|]. split; [exact C|].
    intros R y [<-|Hy] Iy; [congruence|]. exact (H R y Hy Iy). }
  destruct (check_columns_ok p (ix_columns x) I) as (cs & E & H). rewrite E. cbn [bindr].
  pose proof (check_reports p cs I) as C1. destruct (IH (reports cs p) I) as (p' & E' & C & H2). exists p'.
  split; [exact E'|]. split; [eapply check_trans; eassumption|]. intros R.
  destruct (reports_between p (reports cs p) p' (s_reports _ _ _ (c_step _ _ C1)) (s_reports _ _ _ (c_step _ _ C)) R) as (R1 & R2).
  intros y [<-|Hy] Iy; [|exact (H2 R2 y Hy Iy)]. apply H. cbn in R1.
  apply (app_inv_head (pa_reports p)). rewrite app_nil_r. exact R1.
Qed.

Lemma require_column_ok : forall d p n, pinv (pa_cache p) (pa_table p) ->
  exists p', require_column d p n = Ok p' /\ check p p' /\ pa_reports p' = pa_reports p.
Proof.
  intros d p n I. unfold require_column. destruct (get_column_total _ _ n I) as (r & G). rewrite G. cbn [bindr].
  eexists. split; [reflexivity|]. destruct r as [i|]; [|split; [apply check_refl; exact I|reflexivity]].
  split; [|reflexivity]. apply check_columns_on; [exact I|..]; intro c; destruct (_ && _); reflexivity.
Qed.
Lemma require_columns_ok : forall d l p, pinv (pa_cache p) (pa_table p) ->
  exists p', foldr (require_column d) p l = Ok p' /\ check p p' /\ pa_reports p' = pa_reports p.
Proof.
  intros d. induction l as [|n l IH]; intros p I; [exists p; split; [reflexivity|split; [apply check_refl; exact I|reflexivity]]|].
  cbn [foldr]. destruct (require_column_ok d p n I) as (p1 & E1 & C1 & R1). rewrite E1. cbn [bindr].
  destruct (IH p1 (s_inv _ _ _ (c_step _ _ C1))) as (p2 & E2 & C2 & R2). exists p2. split; [exact E2|].
  split; [eapply check_trans; eassumption|congruence].
Qed.
Lemma require_key_ok : forall d p, pinv (pa_cache p) (pa_table p) ->
  exists p', require_key d p = Ok p' /\ check p p' /\ pa_reports p' = pa_reports p.
Proof.
  intros d p I. unfold require_key, get_primary_key. pose proof (proj2 (proj2 (proj2 I))) as K. unfold pk_ok in K.
  assert (N : exists p', Ok p = Ok p' /\ check p p' /\ pa_reports p' = pa_reports p)
    by (exists p; split; [reflexivity|split; [apply check_refl; exact I|reflexivity]]).
  destruct (ca_pkeys (pa_cache p) [tb_schema (pa_table p); tb_name (pa_table p)]) as [i|]; cbn [at_pos bindr]; [|exact N].
  destruct K as (a & Ha & _). rewrite Ha. cbn [bindr]. destruct (con_ignore a); [exact N|]. rewrite Ha.
  apply require_columns_ok. exact I.
Qed.

(** What holds of a table for which nothing was reported. *)
Definition checked (t : table) : Prop :=
  (forall x, In x (tb_constraints t) -> con_ignore x = false -> Forall (has_col t) (con_columns x))
  /\ (forall x, In x (tb_indexes t) -> ix_ignore x = false -> Forall (has_col t) (ix_columns x)).

(** [bad]: what the fields must not contain. *)
Lemma fill_table_ok : forall flt d p fields, pinv (pa_cache p) (pa_table p) ->
  match fill_table flt d p fields with
  | Ok p' => step false p p' /\ (pa_reports p' = pa_reports p -> checked (pa_table p'))
  | Err => False
  | Panic => Exists bad_field fields
      \/ exists p1, foldr (parse_field flt d) p fields = Ok p1 /\ Exists uncited (tb_constraints (pa_table p1))
  end.
Proof.
  intros flt d p fields I. unfold fill_table.
  assert (S : outcome false (Exists bad_field fields) p (foldr (parse_field flt d) p fields)).
  { apply foldr_outcome; [exact I|]. intros p1 f Hf I1. pose proof (parse_field_step flt d p1 f I1) as O.
    destruct (parse_field flt d p1 f); cbn in *; auto. apply Exists_exists. eauto. }
  destruct (foldr (parse_field flt d) p fields) as [p1| |]; cbn [bindr outcome] in *; [|contradiction|left; exact S].
  pose proof (check_constraints_ok d (tb_constraints (pa_table p1)) p1 (s_inv _ _ _ S)) as S2.
  destruct (foldr (check_constraint d) p1 (tb_constraints (pa_table p1))) as [p2| |]; cbn [bindr]; [|contradiction|right; eauto].
  destruct S2 as (C2 & H2). pose proof (s_inv _ _ _ (c_step _ _ C2)) as I2.
  destruct (check_indexes_ok (tb_indexes (pa_table p2)) p2 I2) as (p3 & E3 & C3 & H3). rewrite E3. cbn [bindr].
  destruct (require_key_ok d p3 (s_inv _ _ _ (c_step _ _ C3))) as (p4 & E4 & C4 & R4). rewrite E4.
  pose proof (check_trans _ _ _ C2 (check_trans _ _ _ C3 C4)) as C.
  split; [eapply step_trans; [exact S|apply step_weak; apply C]|].
  intro R. destruct (reports_between p p1 p4 (s_reports _ _ _ S) (s_reports _ _ _ (c_step _ _ C)) R) as (R1 & R').
  destruct (reports_between p1 p2 p4 (s_reports _ _ _ (c_step _ _ C2)) (s_reports _ _ _ (c_step _ _ (check_trans _ _ _ C3 C4))) R') as (R2 & R'').
  destruct (reports_between p2 p3 p4 (s_reports _ _ _ (c_step _ _ C3)) (s_reports _ _ _ (c_step _ _ C4)) R'') as (R3 & _).
  split; intros x Hx Ix.
  - rewrite (c_cons _ _ C) in Hx. eapply Forall_impl; [|exact (H2 R2 x Hx Ix)]. intros n Hn. apply (has_col_check _ _ n C). exact Hn.
  - rewrite (c_ixs _ _ C4), (c_ixs _ _ C3) in Hx. eapply Forall_impl; [|exact (H3 R3 x Hx Ix)].
    intros n Hn. apply (has_col_check _ _ n (check_trans _ _ _ C3 C4)). exact Hn.
Qed.

(** ** The tables of the catalog *)
Fixpoint position (n : bytes) (l : list bytes) : option nat :=
  match l with
  | [] => None
  | x :: l' => if beqb x n then Some 0 else option_map S (position n l')
  end.
Lemma position_none : forall n l, position n l = None <-> ~ In n l.
Proof.
  intros n l. induction l as [|x l IH]; cbn; [tauto|]. destruct (beqb_spec x n) as [->|N].
  - split; [discriminate|tauto].
  - assert (E : option_map S (position n l) = None <-> position n l = None)
      by (destruct (position n l); cbn; split; congruence).
    rewrite E, IH. tauto.
Qed.
Lemma position_some : forall n l i, position n l = Some i -> nth_error l i = Some n.
Proof.
  intros n l. induction l as [|x l IH]; intros i H; cbn in H; [discriminate|]. destruct (beqb_spec x n) as [->|N].
  - injection H as <-. reflexivity.
  - destruct (position n l) as [k|]; cbn in H; [|discriminate]. injection H as <-. cbn. auto.
Qed.
Lemma position_snoc : forall n l x, ~ In x l ->
  position n (l ++ [x]) = if beqb x n then Some (List.length l) else position n l.
Proof.
  intros n l x N. induction l as [|y l IH]; cbn.
  - destruct (beqb x n); reflexivity.
  - cbn in N. rewrite IH by tauto. destruct (beqb_spec y n) as [->|D].
    + destruct (beqb_spec x n) as [->|]; [tauto|reflexivity].
    + destruct (beqb x n); reflexivity.
Qed.

Definition names (sc : schema) : list bytes := map tb_name (sc_tables sc).
Definition sc_ok (c : cache) (sc : schema) : Prop :=
  sc_ignore sc = false /\ NoDup (names sc)
  /\ (forall t, ca_tables c [sc_name sc; t] = position t (names sc))
  /\ Forall (fun t => tb_schema t = sc_name sc /\ pinv c t) (sc_tables sc)
  /\ (forall t, ~ In t (names sc) -> blank c (sc_name sc) t).
Definition st_ok (st : state) : Prop :=
  NoDup (map sc_name (st_schemas st))
  /\ (forall s, ca_schemas (st_cache st) [s] = position s (map sc_name (st_schemas st)))
  /\ Forall (sc_ok (st_cache st)) (st_schemas st)
  /\ (forall s, ~ In s (map sc_name (st_schemas st)) -> forall t, ca_tables (st_cache st) [s; t] = None /\ blank (st_cache st) s t).

Lemma st_ok_empty : st_ok (new_state []).
Proof.
  split; [constructor|]. split; [reflexivity|]. split; [constructor|]. intros s _ t. split; [reflexivity|]. repeat split.
Qed.

(** Putting a table into its schema, which is created if needed. *)
Fixpoint place (t : table) (l : list schema) : list schema :=
  match l with
  | [] => [Schema (tb_schema t) [t] false]
  | sc :: l' => if beqb (sc_name sc) (tb_schema t) then with_tables sc (sc_tables sc ++ [t]) :: l' else sc :: place t l'
  end.
Lemma place_names : forall t l, map sc_name (place t l) =
  if bmem (tb_schema t) (map sc_name l) then map sc_name l else map sc_name l ++ [tb_schema t].
Proof.
  intros t l. induction l as [|sc l IH]; [reflexivity|]. cbn [place map].
  unfold bmem in *. cbn [existsb]. destruct (beqb_spec (sc_name sc) (tb_schema t)) as [E|N].
  - rewrite <- E, beqb_refl. reflexivity.
  - cbn [map]. rewrite IH. destruct (beqb_spec (tb_schema t) (sc_name sc)) as [E|_]; [congruence|]. cbn [orb].
    destruct (existsb (beqb (tb_schema t)) (map sc_name l)); reflexivity.
Qed.
Lemma place_set : forall t l i sc, NoDup (map sc_name l) -> nth_error l i = Some sc -> sc_name sc = tb_schema t ->
  place t l = set_nth i (with_tables sc (sc_tables sc ++ [t])) l.
Proof.
  intros t. induction l as [|x l IH]; intros [|i] sc N H E; cbn in *; try discriminate.
  - injection H as ->. rewrite E, beqb_refl. reflexivity.
  - inversion N; subst. destruct (beqb_spec (sc_name x) (tb_schema t)) as [D|D].
    + exfalso. apply H2. rewrite D, <- E. apply in_map. eapply nth_error_In. exact H.
    + rewrite (IH i sc) by assumption. reflexivity.
Qed.
Lemma place_new : forall t l, ~ In (tb_schema t) (map sc_name l) -> place t l = l ++ [Schema (tb_schema t) [t] false].
Proof.
  intros t. induction l as [|x l IH]; intros N; [reflexivity|]. cbn in *.
  destruct (beqb_spec (sc_name x) (tb_schema t)); [tauto|]. rewrite IH by tauto. reflexivity.
Qed.

Definition fresh_table (s t : bytes) : table := Table s t [] false [] [] [] false.
Lemma fresh_pinv : forall c s t, blank c s t -> pinv c (fresh_table s t).
Proof.
  intros c s t (B1 & B2 & B3 & B4 & B5). split; [apply good_empty; exact B1|]. split; [apply good_empty; exact B2|].
  split; [apply good_empty; exact B3|]. cbn. rewrite B4. intros a [].
Qed.

Lemma blank_frame : forall c c' s t s' t', frame_t c c' s t -> (s', t') <> (s, t) -> blank c s' t' -> blank c' s' t'.
Proof. intros c c' s t s' t' F N. apply blank_same. apply F. exact N. Qed.

Lemma sc_ok_frame : forall c c' s t sc, frame_t c c' s t -> sc_name sc <> s -> sc_ok c sc -> sc_ok c' sc.
Proof.
  intros c c' s t sc F N (I1 & I2 & I3 & I4 & I5).
  assert (Q : forall t', same c c' (sc_name sc) t') by (intro t'; apply F; congruence).
  split; [exact I1|]. split; [exact I2|]. split; [intro t'; rewrite (proj1 (proj2 F)); apply I3|]. split.
  - eapply Forall_impl; [|exact I4]. intros tb (E & P). split; [exact E|]. eapply pinv_same; [|exact P]. rewrite E. apply Q.
  - intros t' H. eapply blank_same; [apply Q|auto].
Qed.

(** Looking up a schema and a new table in it. *)
Definition no_table (s t : bytes) (l : list schema) : Prop :=
  forall sc, In sc l -> sc_name sc = s -> ~ In t (names sc).

(** The state after a table has been put into its schema.  The filled table [t'] replaces the
    fresh one. *)
Lemma nth_map : forall {A K} (g : A -> K) l i a, nth_error l i = Some a -> nth_error (map g l) i = Some (g a).
Proof. intros. rewrite nth_error_map, H. reflexivity. Qed.
Lemma nodup_nth : forall (l : list bytes) i j x, NoDup l -> nth_error l i = Some x -> nth_error l j = Some x -> i = j.
Proof.
  intros l i j x N Hi Hj. eapply NoDup_nth_error; [exact N|apply nth_error_Some; congruence|congruence].
Qed.

Lemma nodup_snoc : forall {A} (l : list A) x, NoDup l -> ~ In x l -> NoDup (l ++ [x]).
Proof.
  intros A l x N H. induction N as [|y l Hy N IH]; [constructor; [intros []|constructor]|].
  cbn in *. constructor; [|apply IH; tauto]. rewrite in_app_iff. cbn. intuition congruence.
Qed.
Lemma Forall_nth : forall {A} (P : A -> Prop) l, Forall P l <-> forall i a, nth_error l i = Some a -> P a.
Proof.
  intros A P l. rewrite Forall_forall. split.
  - intros H i a Ha. apply H. eapply nth_error_In. exact Ha.
  - intros H a Ha. destruct (In_nth_error _ _ Ha) as [i Hi]. eauto.
Qed.

Lemma map_set_nth : forall {A K} (g : A -> K) l i a b, nth_error l i = Some b -> g a = g b -> map g (set_nth i a l) = map g l.
Proof.
  intros A K g. induction l as [|x l IH]; intros [|i] a b H E; cbn in *; try discriminate.
  - injection H as ->. rewrite E. reflexivity.
  - rewrite (IH i a b H E). reflexivity.
Qed.
Lemma set_nth_snoc_last : forall {A} (l : list A) a b, set_nth (List.length l) b (l ++ [a]) = l ++ [b].
Proof. intros A l a b. apply set_last. Qed.

Lemma schema_reached : forall st s, st_ok st ->
  exists l i sc c, get_or_create_schema st s = Ok (State l c, i) /\ nth_error l i = Some sc /\ sc_name sc = s
    /\ st_ok (State l c)
    /\ (l = st_schemas st \/ ~ In s (map sc_name (st_schemas st)) /\ l = st_schemas st ++ [Schema s [] false]
                              /\ i = List.length (st_schemas st) /\ sc = Schema s [] false)
    /\ (forall k, ca_tables c k = ca_tables (st_cache st) k)
    /\ (forall s t, same (st_cache st) c s t).
Proof.
  intros st s (J1 & J2 & J3 & J4). unfold get_or_create_schema, get_or_create. rewrite J2.
  destruct (position s (map sc_name (st_schemas st))) as [i|] eqn:P; cbn [at_pos].
  - pose proof (position_some _ _ _ P) as H. rewrite nth_error_map in H.
    destruct (nth_error (st_schemas st) i) as [sc|] eqn:Hi; [|discriminate]. cbn in H. injection H as H.
    assert (G : sc_ignore sc = false) by (rewrite Forall_nth in J3; apply (J3 i sc Hi)).
    rewrite G. cbn [bindr]. do 4 eexists. split; [reflexivity|]. split; [exact Hi|]. split; [exact H|].
    split; [|split; [left; reflexivity|]].
    + split; [exact J1|]. split; [exact J2|]. split; [exact J3|exact J4].
    + split; [reflexivity|]. intros. repeat split.
  - cbn [bindr]. apply position_none in P. do 4 eexists. split; [reflexivity|]. split; [apply nth_last|]. split; [reflexivity|].
    split; [|split; [right; auto|]].
    + cbn [st_ok st_schemas st_cache]. split; [|split; [|split]]; cbn [st_schemas st_cache].
      * rewrite map_app. cbn [map]. apply nodup_snoc; assumption.
      * intro s'. rewrite map_app. cbn [map sc_name]. rewrite position_snoc by exact P. cbn. unfold upd. cbn.
        rewrite andb_true_r. destruct (beqb s s'); [rewrite map_length; reflexivity|]. apply J2.
      * apply Forall_app. split; [exact J3|]. constructor; [|constructor]. split; [reflexivity|]. split; [constructor|].
        split; [intro t; apply (J4 s P t)|]. split; [constructor|]. intros t _. apply (J4 s P t).
      * intros s' N t. rewrite map_app, in_app_iff in N. apply J4. tauto.
    + split; [reflexivity|]. intros. repeat split.
Qed.

(** One struct: it fills a fresh table, which is then placed. *)
Lemma tables_entered : forall l c i sc tn c' t',
  st_ok (State l c) -> nth_error l i = Some sc -> ~ In tn (names sc) ->
  frame_t (set_tables c (enter (ca_tables c) [sc_name sc; tn] (Some (List.length (sc_tables sc))))) c' (sc_name sc) tn ->
  pinv c' t' -> tb_schema t' = sc_name sc -> tb_name t' = tn ->
  st_ok (State (set_nth i (with_tables sc (sc_tables sc ++ [t'])) l) c').
Proof.
  intros l c i sc tn c' t' (J1 & J2 & J3 & J4) Hi N F P Es Et. cbn [st_schemas st_cache] in *.
  set (sc' := with_tables sc (sc_tables sc ++ [t'])). set (c0 := set_tables c _) in *.
  assert (E : map sc_name (set_nth i sc' l) = map sc_name l) by (eapply map_set_nth; [exact Hi|reflexivity]).
  assert (S0 : forall s t, same c c0 s t) by (intros; repeat split).
  assert (T0 : forall s t, s <> sc_name sc -> ca_tables c' [s; t] = ca_tables c [s; t]).
  { intros s t D. rewrite (proj1 (proj2 F)). apply enter2_away. exact D. }
  assert (T1 : forall t, ca_tables c' [sc_name sc; t] = position t (names sc ++ [tn])).
  { intro t. rewrite (proj1 (proj2 F)). unfold c0. cbn [set_tables ca_tables]. rewrite enter2_at.
    rewrite position_snoc by exact N. destruct (beqb tn t); [unfold names; rewrite map_length; reflexivity|].
    rewrite Forall_nth in J3. apply (J3 i sc Hi). }
  unfold st_ok. cbn [st_schemas st_cache]. rewrite E. split; [exact J1|]. split; [|split].
  - intro s. rewrite (proj1 F). apply J2.
  - apply Forall_nth. intros j x Hx. rewrite Forall_nth in J3. destruct (Nat.eq_dec i j) as [<-|D].
    + rewrite (set_nth_same _ _ _ _ Hi) in Hx. injection Hx as <-. destruct (J3 i sc Hi) as (I1 & I2 & I3 & I4 & I5).
      assert (En : names sc' = names sc ++ [tn]) by (unfold names, sc'; cbn [sc_tables with_tables]; rewrite map_app; cbn; rewrite Et; reflexivity).
      unfold sc_ok. rewrite En. change (sc_name sc') with (sc_name sc). split; [exact I1|].
      split; [apply nodup_snoc; assumption|]. split; [exact T1|]. split.
      * unfold sc'. cbn [sc_tables with_tables]. apply Forall_app. split; [|constructor; [auto|constructor]].
        apply Forall_forall. intros x Hx. rewrite Forall_forall in I4. destruct (I4 x Hx) as (X1 & X2). split; [exact X1|].
        eapply pinv_same; [|exact X2]. rewrite X1. eapply same_trans; [apply S0|]. apply F.
        intro Q. injection Q as Q. apply N. rewrite <- Q. apply in_map. exact Hx.
      * intros t Ht. rewrite in_app_iff in Ht. eapply blank_frame; [exact F|intro Q; injection Q as Q; apply Ht; right; left; congruence|].
        eapply blank_same; [apply S0|]. apply I5. tauto.
    + rewrite set_nth_other in Hx by exact D. pose proof (J3 j x Hx) as (I1 & I2 & I3 & I4 & I5).
      assert (Dn : sc_name x <> sc_name sc).
      { intro Q. apply D. apply (nodup_nth (map sc_name l) i j (sc_name sc)); [exact J1|apply nth_map; exact Hi|].
        rewrite <- Q. apply nth_map. exact Hx. }
      split; [exact I1|]. split; [exact I2|]. split; [intro t; rewrite T0 by exact Dn; apply I3|]. split.
      * eapply Forall_impl; [|exact I4]. intros tb (X1 & X2). split; [exact X1|]. eapply pinv_same; [|exact X2].
        rewrite X1. eapply same_trans; [apply S0|]. apply F. intro Q. injection Q as Q. contradiction.
      * intros t Ht. eapply blank_frame; [exact F|intro Q; injection Q as Q; contradiction|]. eapply blank_same; [apply S0|]. apply I5. exact Ht.
  - intros s Hs t. assert (D : s <> sc_name sc) by (intros ->; apply Hs; apply in_map; eapply nth_error_In; exact Hi).
    rewrite T0 by exact D. split; [apply J4; exact Hs|].
    eapply blank_frame; [exact F|intro Q; injection Q as Q; contradiction|]. eapply blank_same; [apply S0|]. apply J4. exact Hs.
Qed.

Lemma parse_struct_ok : forall flt d cur g s first fields sn tn,
  st_ok (pg_state g) -> ts_fields s = first :: fields -> struct_table cur s first = (sn, tn) ->
  no_table sn tn (st_schemas (pg_state g)) ->
  exists c, blank c sn tn /\
    let p0 := Parser c (fresh_table sn tn) (pg_locations g) (pg_explicit g) (pg_reports g) in
    (forall p, fill_table flt d p0 (ts_fields s) = Ok p -> step false p0 p ->
       let st := State (place (pa_table p) (st_schemas (pg_state g))) (pa_cache p) in
       parse_struct flt d cur g s = Ok (Parsing st (pa_locations p) (pa_explicit p) (pa_reports p)) /\ st_ok st)
    /\ (fill_table flt d p0 (ts_fields s) = Panic -> parse_struct flt d cur g s = Panic).
Proof.
  intros flt d cur g s first fields sn tn J Ef Et Nt.
  destruct (schema_reached (pg_state g) sn J) as (l & i & sc & c & R & Hi & Es & J' & L & T & S).
  assert (N : ~ In tn (names sc)).
  { destruct L as [->|(_ & _ & _ & ->)]; [|intros []]. apply (Nt sc); [eapply nth_error_In; exact Hi|exact Es]. }
  pose proof J' as (J1 & J2 & J3 & J4). cbn [st_schemas st_cache] in *.
  assert (O : sc_ok c sc) by (rewrite Forall_nth in J3; exact (J3 i sc Hi)). destruct O as (I1 & I2 & I3 & I4 & I5).
  set (c0 := set_tables c (enter (ca_tables c) [sc_name sc; tn] (Some (List.length (sc_tables sc))))).
  exists c0. split; [rewrite <- Es; eapply blank_same; [|apply (I5 tn N)]; repeat split|]. cbv zeta.
  assert (E : parse_struct flt d cur g s =
    bindr (fill_table flt d (Parser c0 (fresh_table sn tn) (pg_locations g) (pg_explicit g) (pg_reports g)) (ts_fields s))
      (fun p => Ok (Parsing (State (set_nth i (with_tables sc (sc_tables sc ++ [pa_table p])) l) (pa_cache p))
                      (pa_locations p) (pa_explicit p) (pa_reports p)))).
  { unfold parse_struct. rewrite Ef, Et, R. cbn [bindr st_schemas st_cache]. rewrite Hi. unfold get_or_create_table, get_or_create.
    rewrite I3. replace (position tn (names sc)) with (@None nat) by (symmetry; apply position_none; exact N).
    cbn [at_pos bindr with_tables sc_tables]. rewrite nth_last. rewrite Es. fold (fresh_table sn tn).
    rewrite <- Es at 1. fold c0.
    destruct (fill_table flt d (Parser c0 (fresh_table sn tn) (pg_locations g) (pg_explicit g) (pg_reports g)) (first :: fields)) as [p| |]; cbn [bindr]; try reflexivity.
    rewrite set_nth_snoc_last. unfold with_tables. cbn [sc_name sc_ignore]. rewrite Es. reflexivity. }
  split.
  - intros p Fp Sp. rewrite E, Fp. cbn [bindr].
    assert (Ep : set_nth i (with_tables sc (sc_tables sc ++ [pa_table p])) l = place (pa_table p) (st_schemas (pg_state g))).
    { pose proof (s_schema _ _ _ Sp) as Q. cbn in Q. destruct L as [->|(Hn & -> & -> & ->)].
      - symmetry. apply place_set; [exact J1|exact Hi|congruence].
      - rewrite place_new by (rewrite Q; exact Hn). rewrite set_nth_snoc_last. unfold with_tables. cbn. rewrite Q. reflexivity. }
    rewrite Ep. split; [reflexivity|]. rewrite <- Ep. pose proof (s_frame _ _ _ Sp) as F. cbn in F.
    apply (tables_entered l c i sc tn); auto.
    + rewrite <- Es in F. exact F.
    + apply (s_inv _ _ _ Sp).
    + rewrite (s_schema _ _ _ Sp). cbn. congruence.
    + exact (s_name _ _ _ Sp).
  - intro Fp. rewrite E, Fp. reflexivity.
Qed.

(** The tables that structs stand for. *)
Definition table_of (cur : bytes) (s : table_struct) : list (bytes * bytes) :=
  match ts_fields s with [] => [] | first :: _ => [struct_table cur s first] end.
Definition tables_of (cur : bytes) (l : list table_struct) : list (bytes * bytes) := flat_map (table_of cur) l.

Definition all (l : list schema) : list table := flat_map sc_tables l.
Lemma place_all : forall t l x, In x (all (place t l)) <-> x = t \/ In x (all l).
Proof.
  intros t l x. unfold all. induction l as [|sc l IH]; [cbn; intuition auto|]. cbn [place].
  destruct (beqb (sc_name sc) (tb_schema t)); cbn [flat_map with_tables sc_tables]; rewrite !in_app_iff.
  - cbn. intuition auto.
  - rewrite IH. tauto.
Qed.
Lemma no_table_place : forall t l s n, (s, n) <> (tb_schema t, tb_name t) -> no_table s n l -> no_table s n (place t l).
Proof.
  intros t l s n D H sc Hsc Es Hn. induction l as [|x l IH].
  - destruct Hsc as [<-|[]]. cbn in *. destruct Hn as [<-|[]]. congruence.
  - cbn [place] in Hsc. destruct (beqb_spec (sc_name x) (tb_schema t)) as [E|E].
    + destruct Hsc as [<-|Hsc]; [|exact (H sc (or_intror Hsc) Es Hn)].
      cbn in Es. unfold names in Hn. cbn [sc_tables with_tables] in Hn. rewrite map_app, in_app_iff in Hn.
      destruct Hn as [Hn|[<-|[]]]; [exact (H x (or_introl eq_refl) Es Hn)|congruence].
    + destruct Hsc as [<-|Hsc]; [exact (H x (or_introl eq_refl) Es Hn)|].
      apply IH; [|exact Hsc]. intros y Hy. apply H. right. exact Hy.
Qed.
Definition place_list (ts : list table) (l : list schema) : list schema := fold_left (fun l t => place t l) ts l.

(** All structs, one after another: each of them fills a table that was fresh. *)
Inductive filled (flt : bytes -> bool) (d : dialect) (cur : bytes)
  : list table_struct -> list key * list key * list complaint -> list table -> list key * list key * list complaint -> Prop :=
| filled_nil a : filled flt d cur [] a [] a
| filled_skip s l a ts b : ts_fields s = [] -> filled flt d cur l a ts b -> filled flt d cur (s :: l) a ts b
| filled_cons s l first fields sn tn c loc ex rep p ts b :
    ts_fields s = first :: fields -> struct_table cur s first = (sn, tn) -> blank c sn tn ->
    let p0 := Parser c (fresh_table sn tn) loc ex rep in
    fill_table flt d p0 (ts_fields s) = Ok p -> step false p0 p ->
    filled flt d cur l (pa_locations p, pa_explicit p, pa_reports p) ts b ->
    filled flt d cur (s :: l) (loc, ex, rep) (pa_table p :: ts) b.

Definition rest (g : parsing) : list key * list key * list complaint := (pg_locations g, pg_explicit g, pg_reports g).

Lemma parse_all_ok : forall flt d cur l g,
  st_ok (pg_state g) -> NoDup (tables_of cur l) ->
  (forall s t, In (s, t) (tables_of cur l) -> no_table s t (st_schemas (pg_state g))) ->
  match foldr (parse_struct flt d cur) g l with
  | Ok g' => exists ts, filled flt d cur l (rest g) ts (rest g')
      /\ st_schemas (pg_state g') = place_list ts (st_schemas (pg_state g)) /\ st_ok (pg_state g')
  | Err => False
  | Panic => exists s first fields sn tn c loc ex rep, In s l /\ ts_fields s = first :: fields /\ struct_table cur s first = (sn, tn)
      /\ blank c sn tn /\ fill_table flt d (Parser c (fresh_table sn tn) loc ex rep) (ts_fields s) = Panic
  end.
Proof.
  intros flt d cur. induction l as [|s l IH]; intros g J Nd Fr.
  { cbn. exists []. split; [constructor|]. split; [reflexivity|exact J]. }
  cbn [foldr]. destruct (ts_fields s) as [|first fields] eqn:Ef.
  - unfold parse_struct at 1. rewrite Ef. cbn [bindr].
    assert (E : tables_of cur (s :: l) = tables_of cur l) by (unfold tables_of, table_of; cbn; rewrite Ef; reflexivity).
    rewrite E in *. pose proof (IH g J Nd Fr) as H. destruct (foldr (parse_struct flt d cur) g l) as [g'| |]; auto.
    + destruct H as (ts & F & R). exists ts. split; [constructor; assumption|exact R].
    + destruct H as (s1 & first1 & fields1 & sn & tn & c & loc & ex & rep & H1 & H2). exists s1, first1, fields1, sn, tn, c, loc, ex, rep.
      split; [right; exact H1|exact H2].
  - destruct (struct_table cur s first) as [sn tn] eqn:Et.
    assert (E : tables_of cur (s :: l) = (sn, tn) :: tables_of cur l) by (unfold tables_of, table_of; cbn; rewrite Ef, Et; reflexivity).
    rewrite E in *. inversion Nd as [|? ? Hn Nd']; subst.
    destruct (parse_struct_ok flt d cur g s first fields sn tn J Ef Et (Fr _ _ (or_introl eq_refl))) as (c & Bl & A & Z).
    cbv zeta in A. set (p0 := Parser c (fresh_table sn tn) (pg_locations g) (pg_explicit g) (pg_reports g)) in *.
    pose proof (fill_table_ok flt d p0 (ts_fields s) (fresh_pinv _ _ _ Bl)) as O.
    destruct (fill_table flt d p0 (ts_fields s)) as [p| |] eqn:Fp; [|contradiction|].
    + destruct O as (Sp & _). destruct (A p eq_refl Sp) as (Ep & Jp). rewrite Ep. cbn [bindr].
      set (g1 := Parsing _ _ _ _) in *. specialize (IH g1 Jp Nd').
      assert (Fr' : forall s0 t, In (s0, t) (tables_of cur l) -> no_table s0 t (st_schemas (pg_state g1))).
      { intros s0 t H. cbn. apply no_table_place; [|apply Fr; right; exact H].
        rewrite (s_schema _ _ _ Sp), (s_name _ _ _ Sp). cbn. intro Q. rewrite Q in H. contradiction. }
      specialize (IH Fr'). destruct (foldr (parse_struct flt d cur) g1 l) as [g'| |]; auto.
      * destruct IH as (ts & F & R & J'). exists (pa_table p :: ts). split; [|split; [exact R|exact J']].
        eapply filled_cons; eassumption.
      * destruct IH as (s1 & first1 & fields1 & sn1 & tn1 & c1 & loc & ex & rep & H1 & H2).
        exists s1, first1, fields1, sn1, tn1, c1, loc, ex, rep. split; [right; exact H1|exact H2].
    + rewrite (Z eq_refl). cbn [bindr]. exists s, first, fields, sn, tn, c, (pg_locations g), (pg_explicit g), (pg_reports g).
      repeat split; auto; [left; reflexivity|apply Bl..].
Qed.

(** ** The foreign keys *)
Definition referred (l : list schema) (s n : bytes) (cols : list bytes) : Prop :=
  exists sc t, In sc l /\ sc_name sc = s /\ In t (sc_tables sc) /\ tb_name t = n /\ tb_ignore t = false /\ Forall (has_col t) cols.

Lemma check_references_ok : forall c t l, pinv c t ->
  exists cs, check_references c t l = Ok cs /\ (cs = [] <-> Forall (has_col t) l).
Proof.
  intros c t l I. induction l as [|n l (cs & E & H)]; [exists []; split; [reflexivity|split; auto]|].
  cbn [check_references]. destruct (get_column_total _ _ n I) as (r & R). rewrite R, E. cbn [bindr].
  pose proof (get_column_has _ _ _ _ I R) as G. destruct r as [i|].
  - exists cs. split; [reflexivity|]. rewrite H. split; [constructor; [apply G; discriminate|assumption]|].
    intro F. inversion F; assumption.
  - eexists. split; [reflexivity|]. split; [discriminate|]. intro F. inversion F; subst.
    exfalso. apply (proj1 G); auto.
Qed.

Lemma check_foreign_key_ok : forall cur g t x, st_ok (pg_state g) ->
  exists cs, check_foreign_key cur g t x = Ok cs
    /\ (con_ignore x = false -> con_type x = FOREIGN_KEY -> kmem [tb_schema t; con_name x] (pg_locations g) = true ->
        (cs = [] <-> referred (st_schemas (pg_state g)) (if is_empty (con_refschema x) then cur else con_refschema x)
                       (con_reftable x) (con_refcolumns x))).
Proof.
  intros cur g t x (J1 & J2 & J3 & J4). unfold check_foreign_key.
  destruct (con_ignore x || negb (beqb (con_type x) FOREIGN_KEY)) eqn:E0.
  { exists []. split; [reflexivity|]. intros H1 H2. rewrite H1, H2, beqb_refl in E0. discriminate. }
  destruct (kmem [tb_schema t; con_name x] (pg_locations g)) eqn:E1; cbn [negb].
  2:{ exists []. split; [reflexivity|]. discriminate. }
  cbv zeta. set (sn := if is_empty (con_refschema x) then cur else con_refschema x). unfold get_schema. rewrite J2.
  destruct (position sn (map sc_name (st_schemas (pg_state g)))) as [i|] eqn:P; cbn [at_pos bindr].
  2:{ eexists. split; [reflexivity|]. intros _ _ _. split; [discriminate|]. intros (sc & t' & Hsc & Esc & _). exfalso.
      apply position_none in P. apply P. rewrite <- Esc. apply in_map. exact Hsc. }
  pose proof (position_some _ _ _ P) as H. rewrite nth_error_map in H.
  destruct (nth_error (st_schemas (pg_state g)) i) as [sc|] eqn:Hi; [|discriminate]. cbn in H. injection H as Hs.
  rewrite Forall_nth in J3. destruct (J3 i sc Hi) as (I1 & I2 & I3 & I4 & I5). rewrite I1. cbn [bindr]. rewrite Hi.
  assert (U : forall sc', In sc' (st_schemas (pg_state g)) -> sc_name sc' = sn -> sc' = sc).
  { intros sc' H1 H2. destruct (In_nth_error _ _ H1) as [j Hj]. assert (j = i); [|congruence].
    apply (nodup_nth _ _ _ sn J1); [rewrite <- H2|rewrite <- Hs]; apply nth_map; assumption. }
  unfold get_table. rewrite I3. destruct (position (con_reftable x) (names sc)) as [j|] eqn:Pj; cbn [at_pos bindr].
  2:{ eexists. split; [reflexivity|]. intros _ _ _. split; [discriminate|]. intros (sc' & t' & Hsc & Esc & Ht & Et & _). exfalso.
      rewrite (U sc' Hsc Esc) in Ht. apply position_none in Pj. apply Pj. rewrite <- Et. apply in_map. exact Ht. }
  pose proof (position_some _ _ _ Pj) as Ht. unfold names in Ht. rewrite nth_error_map in Ht.
  destruct (nth_error (sc_tables sc) j) as [t'|] eqn:Hj; [|discriminate]. cbn in Ht. injection Ht as Ht.
  assert (V : forall t2, In t2 (sc_tables sc) -> tb_name t2 = con_reftable x -> t2 = t').
  { intros t2 H1 H2. destruct (In_nth_error _ _ H1) as [k Hk]. assert (k = j); [|congruence].
    apply (nodup_nth _ _ _ (con_reftable x) I2); [rewrite <- H2|rewrite <- Ht]; apply nth_map; assumption. }
  destruct (tb_ignore t') eqn:Ig; cbn [bindr].
  { eexists. split; [reflexivity|]. intros _ _ _. split; [discriminate|]. intros (sc' & t2 & Hsc & Esc & Ht2 & Et2 & It2 & _). exfalso.
    rewrite (U sc' Hsc Esc) in Ht2. rewrite (V t2 Ht2 Et2) in It2. congruence. }
  rewrite Hj. rewrite Forall_nth in I4. destruct (I4 j t' Hj) as (_ & Pt).
  destruct (check_references_ok (st_cache (pg_state g)) t' (con_refcolumns x) Pt) as (cs & E & Hc). exists cs. split; [exact E|].
  intros _ _ _. rewrite Hc. split.
  - intro F. exists sc, t'. repeat split; auto; eapply nth_error_In; eassumption.
  - intros (sc' & t2 & Hsc & Esc & Ht2 & Et2 & It2 & F). rewrite (U sc' Hsc Esc) in Ht2. rewrite (V t2 Ht2 Et2) in F. exact F.
Qed.

Lemma flatr_total : forall {A C} (f : A -> result (list C)) l, (forall a, In a l -> exists r, f a = Ok r) -> exists r, flatr f l = Ok r.
Proof.
  intros A C f l H. induction l as [|a l IH]; [eexists; reflexivity|]. cbn.
  destruct (H a (or_introl eq_refl)) as (r & ->). cbn [bindr]. destruct IH as (r' & ->); [intros b Hb; apply H; right; exact Hb|].
  eexists. reflexivity.
Qed.
Lemma flatr_nil : forall {A C} (f : A -> result (list C)) l a, flatr f l = Ok [] -> In a l -> f a = Ok [].
Proof.
  intros A C f l a. induction l as [|b l IH]; [intros _ []|]. cbn. intros H Ha.
  destruct (f b) as [r| |] eqn:Eb; cbn [bindr] in H; try discriminate.
  destruct (flatr f l) as [r'| |]; cbn [bindr] in H; try discriminate. injection H as H. apply app_eq_nil in H. destruct H as (-> & ->).
  destruct Ha as [<-|Ha]; [exact Eb|auto].
Qed.

(** All constraints of the filled tables are located, and what was reported stays. *)
Lemma filled_facts : forall flt d cur l a ts b, filled flt d cur l a ts b ->
  (exists cs, snd b = snd a ++ cs) /\ (forall k, kmem k (fst (fst a)) = true -> kmem k (fst (fst b)) = true)
  /\ (forall t, In t ts -> forall x, In x (tb_constraints t) -> kmem [tb_schema t; con_name x] (fst (fst b)) = true)
  /\ (snd b = snd a -> forall t, In t ts -> checked t).
Proof.
  intros flt d cur l a ts b F. induction F as [a|s l a ts b Ef F IH|s l first fields sn tn c loc ex rep p ts b Ef Et Bl p0 Fp Sp F IH].
  - split; [exists []; rewrite app_nil_r; reflexivity|]. split; [auto|]. split; intros; contradiction.
  - exact IH.
  - destruct IH as ((cs & R) & K & L & C). cbn [fst snd] in *. destruct (s_reports _ _ _ Sp) as (cs' & R'). cbn in R'.
    split; [exists (cs' ++ cs); rewrite R, R', app_assoc; reflexivity|]. split; [|split].
    + intros k Hk. apply K. apply (s_locations _ _ _ Sp). exact Hk.
    + intros t [<-|Ht] x Hx; [|exact (L t Ht x Hx)]. apply K. apply (s_located _ _ _ Sp); [|exact Hx]. intros y [].
    + intros E. rewrite R, R', <- app_assoc in E.
      assert (Z : cs' ++ cs = []) by (apply (app_inv_head rep); rewrite app_nil_r; exact E).
      apply app_eq_nil in Z. destruct Z as (-> & ->). rewrite app_nil_r in *. intros t [<-|Ht]; [|exact (C R t Ht)].
      pose proof (fill_table_ok flt d p0 (ts_fields s) (fresh_pinv _ _ _ Bl)) as O. rewrite Fp in O. apply O. exact R'.
Qed.

Lemma place_list_all : forall ts l x, In x (all (place_list ts l)) <-> In x ts \/ In x (all l).
Proof.
  induction ts as [|t ts IH]; intros l x; [cbn; tauto|]. unfold place_list. cbn [fold_left]. fold (place_list ts (place t l)).
  rewrite IH, place_all. cbn. intuition auto.
Qed.

(** ** The main statements *)
Theorem accepted_checked : forall flt d cur l schemas,
  NoDup (tables_of cur l) -> parse_structs flt d cur [] l = Ok (schemas, []) ->
  forall t, In t (all schemas) ->
    checked t
    /\ forall x, In x (tb_constraints t) -> con_ignore x = false -> con_type x = FOREIGN_KEY ->
         referred schemas (if is_empty (con_refschema x) then cur else con_refschema x) (con_reftable x) (con_refcolumns x).
Proof.
  intros flt d cur l schemas Nd H. unfold parse_structs in H.
  pose proof (parse_all_ok flt d cur l (Parsing (new_state []) [] [] []) st_ok_empty Nd (fun s t _ sc Hs _ => match Hs with end)) as A.
  destruct (foldr (parse_struct flt d cur) (Parsing (new_state []) [] [] []) l) as [g| |]; cbn [bindr] in H; try discriminate.
  destruct A as (ts & F & R & J).
  destruct (flatr _ (st_schemas (pg_state g))) as [cs| |] eqn:Ec; cbn [bindr] in H; try discriminate.
  injection H as Es Er. apply app_eq_nil in Er. destruct Er as (Er & ->).
  destruct (filled_facts _ _ _ _ _ _ _ F) as (_ & _ & L & C). cbn [rest fst snd] in *.
  intros t Ht. assert (Hts : In t ts).
  { rewrite <- Es, R in Ht. apply place_list_all in Ht. destruct Ht as [Ht|[]]. exact Ht. }
  split; [apply C; [rewrite Er; reflexivity|exact Hts]|].
  intros x Hx Ix Tx. destruct (check_foreign_key_ok cur g t x J) as (cs & E & Hc). subst schemas.
  apply (Hc Ix Tx (L t Hts x Hx)). unfold all in Ht. apply in_flat_map in Ht. destruct Ht as (sc & Hsc & Ht).
  pose proof (flatr_nil _ _ sc Ec Hsc) as E1. cbn beta in E1. pose proof (flatr_nil _ _ t E1 Ht) as E2. cbn beta in E2.
  pose proof (flatr_nil _ _ x E2 Hx) as E3. congruence.
Qed.
