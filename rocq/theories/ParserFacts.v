(** Proofs about reading table structs: what every step keeps true of the table that is being
    filled. *)
From Coq Require Import Lia.
From Verif Require Import GoStr GoStrFacts ModelCatalog ModelCache SpecCache CacheFacts CopyFacts ModelDdl NormFacts
  ModelModifier ModifierFacts ModelDiff ModelDiffSql ModelGoTag ModelStructs ModelParser.

Local Arguments PRIMARY_KEY : simpl never.
Local Arguments FOREIGN_KEY : simpl never.
Local Arguments UNIQUE : simpl never.

(** ** Changes of one object *)
Lemma change_nth_length : forall {A} (l : list A) i f, List.length (change_nth i f l) = List.length l.
Proof. intros A l i f. unfold change_nth. destruct (nth_error l i); [apply set_nth_length|reflexivity]. Qed.
Lemma change_nth_at : forall {A} (l : list A) i f a, nth_error l i = Some a -> nth_error (change_nth i f l) i = Some (f a).
Proof. intros A l i f a H. unfold change_nth. rewrite H. eapply set_nth_same. exact H. Qed.
Lemma change_nth_other : forall {A} (l : list A) i j f, i <> j -> nth_error (change_nth i f l) j = nth_error l j.
Proof. intros A l i j f N. unfold change_nth. destruct (nth_error l i); [apply set_nth_other; exact N|reflexivity]. Qed.
Lemma change_nth_cases : forall {A} (l : list A) i f j b, nth_error (change_nth i f l) j = Some b ->
  exists a, nth_error l j = Some a /\ (b = a \/ j = i /\ b = f a).
Proof.
  intros A l i f j b H. destruct (Nat.eq_dec i j) as [->|N].
  - destruct (nth_error l j) as [a|] eqn:E.
    + rewrite (change_nth_at _ _ _ _ E) in H. injection H as <-. eauto.
    + unfold change_nth in H. rewrite E in H. congruence.
  - rewrite change_nth_other in H by exact N. eauto.
Qed.
Lemma change_nth_In : forall {A} (l : list A) i f b, In b (change_nth i f l) -> In b l \/ exists a, In a l /\ b = f a.
Proof.
  intros A l i f b H. destruct (In_nth_error _ _ H) as [j Hj]. destruct (change_nth_cases _ _ _ _ _ Hj) as (a & Ha & [->|(_ & ->)]).
  - left. eapply nth_error_In. exact Ha.
  - right. exists a. split; [eapply nth_error_In; exact Ha|reflexivity].
Qed.

Lemma good_change : forall A ok name ign (l : list A) m i f, good ok name ign l m ->
  (forall a, name (f a) = name a) -> (forall a, ign (f a) = ign a) -> good ok name ign (change_nth i f l) m.
Proof.
  intros A ok name ign l m i f [G1 G2] N I. split.
  - intros n k H. destruct (G1 _ _ H) as (a & Ha & Na & U).
    assert (U' : ok n -> forall j b, nth_error (change_nth i f l) j = Some b -> name b = n -> ign b = false -> j = k).
    { intros O j b Hj Nb Ib. destruct (change_nth_cases _ _ _ _ _ Hj) as (a' & Ha' & [->|(_ & ->)]); [eauto|].
      rewrite N in Nb. rewrite I in Ib. eauto. }
    destruct (Nat.eq_dec i k) as [->|D].
    + exists (f a). split; [apply change_nth_at; exact Ha|]. rewrite N. auto.
    + exists a. rewrite change_nth_other by exact D. auto.
  - intros n O H b Hb Nb. destruct (change_nth_In _ _ _ _ Hb) as [Hb'|(a & Ha & ->)].
    + exact (G2 n O H b Hb' Nb).
    + rewrite N in Nb. exact (G2 n O H a Ha Nb).
Qed.
(** The object that the cache points to may change its flag. *)
Lemma good_change_at : forall A ok name ign (l : list A) m n i f, good ok name ign l m -> m n = Some i ->
  (forall a, name (f a) = name a) -> good ok name ign (change_nth i f l) m.
Proof.
  intros A ok name ign l m n i f [G1 G2] M N. destruct (G1 _ _ M) as (a0 & Ha0 & Na0 & _). split.
  - intros n' k H. destruct (G1 _ _ H) as (a & Ha & Na & U).
    assert (U' : ok n' -> forall j b, nth_error (change_nth i f l) j = Some b -> name b = n' -> ign b = false -> j = k).
    { intros O j b Hj Nb Ib. destruct (change_nth_cases _ _ _ _ _ Hj) as (a' & Ha' & [->|(-> & ->)]); [eauto|].
      rewrite Ha0 in Ha'. injection Ha' as <-. rewrite N in Nb. congruence. }
    destruct (Nat.eq_dec i k) as [->|D].
    + exists (f a). split; [apply change_nth_at; exact Ha|]. rewrite N. auto.
    + exists a. rewrite change_nth_other by exact D. auto.
  - intros n' O H b Hb Nb. destruct (change_nth_In _ _ _ _ Hb) as [Hb'|(a & Ha & ->)].
    + exact (G2 n' O H b Hb' Nb).
    + rewrite N in Nb. exact (G2 n' O H a Ha Nb).
Qed.

Lemma pk_ok_change : forall l p i f, (forall a, con_type (f a) = con_type a) -> pk_ok l p -> pk_ok (change_nth i f l) p.
Proof.
  intros l [k|] i f T P; cbn in *.
  - destruct P as (a & Ha & Ta). destruct (Nat.eq_dec i k) as [->|D].
    + exists (f a). split; [apply change_nth_at; exact Ha|]. rewrite T. exact Ta.
    + exists a. rewrite change_nth_other by exact D. auto.
  - intros a Ha. destruct (change_nth_In _ _ _ _ Ha) as [Ha'|(b & Hb & ->)]; [auto|]. rewrite T. auto.
Qed.

(** ** The table and its cache *)
Definition pinv (c : cache) (t : table) : Prop :=
  good any col_name col_ignore (tb_columns t) (fun n => ca_columns c [tb_schema t; tb_name t; n])
  /\ good nonempty con_name con_ignore (tb_constraints t) (fun n => ca_constraints c [tb_schema t; tb_name t; n])
  /\ good any ix_name ix_ignore (tb_indexes t) (fun n => ca_indexes c [tb_schema t; tb_name t; n])
  /\ pk_ok (tb_constraints t) (ca_pkeys c [tb_schema t; tb_name t]).

Lemma pinv_same : forall c c' t, same c c' (tb_schema t) (tb_name t) -> pinv c t -> pinv c' t.
Proof.
  intros c c' t (S1 & S2 & S3 & S4 & S5) (I1 & I2 & I3 & I4).
  split; [exact (good_ext _ _ _ _ _ _ _ S1 I1)|]. split; [exact (good_ext _ _ _ _ _ _ _ S2 I2)|].
  split; [exact (good_ext _ _ _ _ _ _ _ S3 I3)|]. rewrite S4. exact I4.
Qed.

(** Every constraint has a location. *)
Definition located_all (p : parser) : Prop :=
  forall x, In x (tb_constraints (pa_table p)) -> kmem [tb_schema (pa_table p); con_name x] (pa_locations p) = true.

(** [quiet]: no column is added. *)
Record step (quiet : bool) (p p' : parser) : Prop := Step {
  s_schema : tb_schema (pa_table p') = tb_schema (pa_table p);
  s_name : tb_name (pa_table p') = tb_name (pa_table p);
  s_inv : pinv (pa_cache p') (pa_table p');
  s_frame : frame_t (pa_cache p) (pa_cache p') (tb_schema (pa_table p)) (tb_name (pa_table p));
  s_reports : exists cs, pa_reports p' = pa_reports p ++ cs;
  s_locations : forall k, kmem k (pa_locations p) = true -> kmem k (pa_locations p') = true;
  s_located : located_all p -> located_all p';
  s_columns : quiet = true -> forall k, ca_columns (pa_cache p') k = ca_columns (pa_cache p) k
}.
Section Steps.
Variable q : bool.
Lemma step_refl : forall p, pinv (pa_cache p) (pa_table p) -> step q p p.
Proof.
  intros p I. constructor; auto; [apply frame_t_refl|]. exists []. rewrite app_nil_r. reflexivity.
Qed.
Lemma step_trans : forall p1 p2 p3, step q p1 p2 -> step q p2 p3 -> step q p1 p3.
Proof.
  intros p1 p2 p3 [A1 A2 A3 A4 (cs & A5) A6 A7 A8] [B1 B2 B3 B4 (ds & B5) B6 B7 B8]. constructor; auto; try congruence.
  - eapply frame_t_trans; [exact A4|]. rewrite A1, A2 in B4. exact B4.
  - exists (cs ++ ds). rewrite B5, A5, app_assoc. reflexivity.
  - intros Q k. rewrite B8, A8 by exact Q. reflexivity.
Qed.

Lemma step_report : forall p c, pinv (pa_cache p) (pa_table p) -> step q p (report c p).
Proof.
  intros p c I. constructor; auto; [apply frame_t_refl|]. exists [c]. reflexivity.
Qed.
Lemma step_reports : forall p cs, pinv (pa_cache p) (pa_table p) -> step q p (reports cs p).
Proof.
  intros p c I. constructor; auto; [apply frame_t_refl|]. exists c. reflexivity.
Qed.
Lemma step_columns : forall p i f, pinv (pa_cache p) (pa_table p) ->
  (forall c, col_name (f c) = col_name c) -> (forall c, col_ignore (f c) = col_ignore c) -> step q p (on_columns i f p).
Proof.
  intros p i f (I1 & I2 & I3 & I4) N G. constructor; auto.
  - split; [|auto]. cbn. apply good_change; assumption.
  - apply frame_t_refl.
  - exists []. cbn. rewrite app_nil_r. reflexivity.
Qed.
Lemma step_columns_at : forall p i f n, pinv (pa_cache p) (pa_table p) ->
  ca_columns (pa_cache p) [tb_schema (pa_table p); tb_name (pa_table p); n] = Some i ->
  (forall c, col_name (f c) = col_name c) -> step q p (on_columns i f p).
Proof.
  intros p i f n (I1 & I2 & I3 & I4) M N. constructor; auto.
  - split; [|auto]. cbn. eapply (good_change_at _ _ _ _ _ _ n); eassumption.
  - apply frame_t_refl.
  - exists []. cbn. rewrite app_nil_r. reflexivity.
Qed.
Lemma located_change : forall p i f, (forall c, con_name (f c) = con_name c) -> located_all p -> located_all (on_constraints i f p).
Proof.
  intros p i f N L x Hx. cbn [on_constraints pa_table with_table with_constraints tb_constraints tb_schema pa_locations] in *.
  destruct (change_nth_In _ _ _ _ Hx) as [H|(a & Ha & ->)]; [apply L; exact H|]. rewrite N. apply L. exact Ha.
Qed.
Lemma step_constraints : forall p i f, pinv (pa_cache p) (pa_table p) ->
  (forall c, con_name (f c) = con_name c) -> (forall c, con_ignore (f c) = con_ignore c) ->
  (forall c, con_type (f c) = con_type c) -> step q p (on_constraints i f p).
Proof.
  intros p i f (I1 & I2 & I3 & I4) N G T. constructor; auto.
  - split; [exact I1|]. split; [cbn; apply good_change; assumption|]. split; [exact I3|]. cbn. apply pk_ok_change; assumption.
  - apply frame_t_refl.
  - exists []. cbn. rewrite app_nil_r. reflexivity.
  - apply located_change. exact N.
Qed.
Lemma step_constraints_at : forall p i f n, pinv (pa_cache p) (pa_table p) ->
  ca_constraints (pa_cache p) [tb_schema (pa_table p); tb_name (pa_table p); n] = Some i ->
  (forall c, con_name (f c) = con_name c) -> (forall c, con_type (f c) = con_type c) -> step q p (on_constraints i f p).
Proof.
  intros p i f n (I1 & I2 & I3 & I4) M N T. constructor; auto.
  - split; [exact I1|]. split; [cbn; eapply (good_change_at _ _ _ _ _ _ n); eassumption|]. split; [exact I3|].
    cbn. apply pk_ok_change; assumption.
  - apply frame_t_refl.
  - exists []. cbn. rewrite app_nil_r. reflexivity.
  - apply located_change. exact N.
Qed.
Lemma step_indexes : forall p i f, pinv (pa_cache p) (pa_table p) ->
  (forall c, ix_name (f c) = ix_name c) -> (forall c, ix_ignore (f c) = ix_ignore c) -> step q p (on_indexes i f p).
Proof.
  intros p i f (I1 & I2 & I3 & I4) N G. constructor; auto.
  - split; [exact I1|]. split; [exact I2|]. split; [|exact I4]. cbn. apply good_change; assumption.
  - apply frame_t_refl.
  - exists []. cbn. rewrite app_nil_r. reflexivity.
Qed.
Lemma step_indexes_at : forall p i f n, pinv (pa_cache p) (pa_table p) ->
  ca_indexes (pa_cache p) [tb_schema (pa_table p); tb_name (pa_table p); n] = Some i ->
  (forall c, ix_name (f c) = ix_name c) -> step q p (on_indexes i f p).
Proof.
  intros p i f n (I1 & I2 & I3 & I4) M N. constructor; auto.
  - split; [exact I1|]. split; [exact I2|]. split; [|exact I4]. cbn. eapply (good_change_at _ _ _ _ _ _ n); eassumption.
  - apply frame_t_refl.
  - exists []. cbn. rewrite app_nil_r. reflexivity.
Qed.

(** ** Objects that are looked up or created *)
Lemma column_created : forall p n ty, pinv (pa_cache p) (pa_table p) ->
  exists t c i a, get_or_create_column (pa_cache p) (pa_table p) n ty = Ok (t, c, i)
    /\ step false p (with_table t c p) /\ ca_columns c [tb_schema t; tb_name t; n] = Some i
    /\ nth_error (tb_columns t) i = Some a /\ col_name a = n
    /\ tb_constraints t = tb_constraints (pa_table p) /\ tb_indexes t = tb_indexes (pa_table p).
Proof.
  intros p n ty (I1 & I2 & I3 & I4). set (t := pa_table p) in *. unfold get_or_create_column.
  destruct (get_or_create_good _ _ _ _ _ _ (new_column t n ty) I1) as (l' & e & i & R & G & (a & Ha & Na & _) & _ & E).
  change (col_name (new_column t n ty)) with n in *. cbn beta in R. rewrite R. cbn [bindr].
  do 3 eexists. exists a. split; [reflexivity|]. split; [|split; [|auto]].
  - constructor; auto.
    + split; [|auto]. cbn. eapply good_ext; [|exact G]. intro n'. apply enter_at.
    + split; [reflexivity|]. split; [reflexivity|]. intros s' t' N. repeat split. intro n'. apply enter_away. exact N.
    + exists []. cbn. rewrite app_nil_r. reflexivity.
    + discriminate.
  - cbn. rewrite enter_at, beqb_refl. destruct e as [k|].
    + destruct E as (_ & _ & -> & _). reflexivity.
    + destruct E as (_ & E). apply at_pos_some in E. apply E.
Qed.
Lemma index_created : forall p n cols, pinv (pa_cache p) (pa_table p) ->
  exists t c i, get_or_create_index (pa_cache p) (pa_table p) n cols = Ok (t, c, i)
    /\ step q p (with_table t c p) /\ ca_indexes c [tb_schema t; tb_name t; n] = Some i
    /\ tb_constraints t = tb_constraints (pa_table p) /\ tb_columns t = tb_columns (pa_table p).
Proof.
  intros p n cols (I1 & I2 & I3 & I4). set (t := pa_table p) in *. unfold get_or_create_index.
  set (x := Index _ _ n _ _ _ _ _ _ _ _ _).
  destruct (get_or_create_good _ _ _ _ _ _ x I3) as (l' & e & i & R & G & (a & Ha & Na & _) & _ & E).
  change (ix_name x) with n in *. cbn beta in R. rewrite R. cbn [bindr].
  do 3 eexists. split; [reflexivity|]. split; [|split; [|auto]].
  - constructor; auto.
    + split; [exact I1|]. split; [exact I2|]. split; [|exact I4]. cbn. eapply good_ext; [|exact G]. intro n'. apply enter_at.
    + split; [reflexivity|]. split; [reflexivity|]. intros s' t' N. repeat split. intro n'. apply enter_away. exact N.
    + exists []. cbn. rewrite app_nil_r. reflexivity.
  - cbn. rewrite enter_at, beqb_refl. destruct e as [k|].
    + destruct E as (_ & _ & -> & _). reflexivity.
    + destruct E as (_ & E). apply at_pos_some in E. apply E.
Qed.
Lemma kmem_head : forall k l, kmem k (k :: l) = true.
Proof. intros k l. cbn. rewrite keqb_refl. reflexivity. Qed.
Lemma kmem_tail : forall k k' l, kmem k l = true -> kmem k (k' :: l) = true.
Proof. intros k k' l H. cbn. fold (kmem k l). rewrite H. apply orb_true_r. Qed.

Lemma constraint_created : forall p n ty cols, n <> [] -> pinv (pa_cache p) (pa_table p) ->
  exists t c i, get_or_create_constraint (pa_cache p) (pa_table p) n ty cols = Ok (t, c, i)
    /\ step q p (with_table t c (locate n p)) /\ ca_constraints c [tb_schema t; tb_name t; n] = Some i
    /\ (tb_constraints t = tb_constraints (pa_table p)
        \/ tb_constraints t = tb_constraints (pa_table p) ++ [new_constraint (pa_table p) n ty cols]
           /\ i = List.length (tb_constraints (pa_table p)))
    /\ tb_columns t = tb_columns (pa_table p) /\ tb_indexes t = tb_indexes (pa_table p).
Proof.
  intros p n ty cols Ne (I1 & I2 & I3 & I4). set (t := pa_table p) in *. unfold get_or_create_constraint.
  destruct (get_or_create_good _ _ _ _ _ _ (new_constraint t n ty cols) I2) as (l' & e & i & R & G & (a & Ha & Na & _) & _ & E).
  change (con_name (new_constraint t n ty cols)) with n in *. cbn beta in R. rewrite R. cbn [bindr].
  do 3 eexists. split; [reflexivity|]. split; [|split; [|split; [|auto]]].
  - constructor; auto.
    + split; [exact I1|]. split; [cbn; eapply good_ext; [|exact G]; intro n'; apply enter_at|]. split; [exact I3|].
      cbn -[beqb]. destruct e as [k|].
      * destruct E as (-> & -> & -> & _). pose proof (pk_ok_snoc _ (new_constraint t n ty cols) _ I4) as P.
        cbn [new_constraint con_type] in P. destruct (beqb ty PRIMARY_KEY); [rewrite upd_same|]; exact P.
      * destruct E as (-> & _). exact I4.
    + apply enter_constraint_frame. intros s' t' n' N. apply enter_away. exact N.
    + exists []. cbn. rewrite app_nil_r. reflexivity.
    + intros k H. apply kmem_tail. exact H.
    + intros L x Hx. cbn [pa_table with_table with_constraints tb_constraints tb_schema locate pa_locations] in *.
      destruct e as [k|].
      * destruct E as (-> & _). apply in_app_iff in Hx. destruct Hx as [Hx|[<-|[]]].
        -- apply kmem_tail. apply L. exact Hx.
        -- apply kmem_head.
      * destruct E as (-> & _). apply kmem_tail. apply L. exact Hx.
  - cbn. rewrite enter_at, beqb_refl. destruct e as [k|].
    + destruct E as (_ & _ & -> & _). reflexivity.
    + destruct E as (_ & E). apply at_pos_some in E. apply E.
  - cbn. destruct e as [k|]; destruct E as (-> & E); [right|left; reflexivity]. split; [reflexivity|apply E].
Qed.

(** ** The modifiers of constraints and indexes *)
Definition outcome (bad : Prop) (p : parser) (r : result parser) : Prop :=
  match r with Ok p' => step q p p' | Err => False | Panic => bad end.
Lemma outcome_then : forall (bad : Prop) p p1 r, step q p p1 -> outcome bad p1 r -> outcome bad p r.
Proof. intros bad p p1 [p2| |] S O; cbn in *; auto. eapply step_trans; eassumption. Qed.

Lemma parsed_total : forall m, exists r, parsed_value m = r /\ r <> Panic.
Proof.
  intro m. destruct (parse_raw_total m) as (r & E & N). unfold parsed_value. rewrite E. eauto.
Qed.

Lemma suffix_nonempty : forall k, k <> OtherKind -> kind_suffix k <> [].
Proof. intros [] N H; try discriminate H. exact (N eq_refl). Qed.
Lemma generated_nonempty : forall k t cols, k <> OtherKind -> generate_name k t cols <> [].
Proof.
  intros k t cols N H. unfold generate_name in H. cbv zeta in H.
  destruct (0 <? _); apply app_eq_nil in H; apply (suffix_nonempty k N); apply H.
Qed.

Lemma fold_step : forall (f : parser -> modifier -> parser) p l, pinv (pa_cache p) (pa_table p) ->
  (forall p m, pinv (pa_cache p) (pa_table p) -> step q p (f p m)) -> step q p (fold_left f l p).
Proof.
  intros f p l I H. revert p I. induction l as [|m l IH]; intros p I; [apply step_refl; exact I|].
  cbn. pose proof (H p m I) as S. eapply step_trans; [exact S|]. apply IH. apply S.
Qed.

Lemma index_sub_step : forall d i p m, pinv (pa_cache p) (pa_table p) -> step q p (index_sub d i p m).
Proof.
  intros d i p m I. unfold index_sub. destruct (excluded d m); [apply step_refl; exact I|].
  destruct (beqb (m_name m) (B"unique")); [apply step_indexes; auto|].
  destruct (beqb (m_name m) (B"using")); [|apply step_report; exact I].
  destruct d; try (apply step_refl; exact I); apply step_indexes; auto.
Qed.
Lemma locate_step : forall n p, pinv (pa_cache p) (pa_table p) -> step q p (locate n p).
Proof.
  intros n p I. constructor; auto.
  - apply frame_t_refl.
  - exists []. cbn. rewrite app_nil_r. reflexivity.
  - intros k H. apply kmem_tail. exact H.
  - intros L x Hx. apply kmem_tail. apply L. exact Hx.
Qed.
Lemma when_report : forall (b : bool) c p, pinv (pa_cache p) (pa_table p) -> step q p (if b then report c p else p).
Proof. intros [|] c p I; [apply step_report|apply step_refl]; exact I. Qed.

Lemma parse_index_step : forall bad d columns p m, pinv (pa_cache p) (pa_table p) -> outcome bad p (parse_index d columns p m).
Proof.
  intros bad d columns p m I. unfold parse_index. destruct (parsed_total m) as (r & E & N). rewrite E.
  destruct r as [m'| |]; [|apply step_report; exact I|contradiction]. cbv zeta.
  set (cols := if own_value (m_value m') then _ else _).
  eapply outcome_then; [apply (when_report (none cols) NoColumn p I)|].
  set (p1 := if none cols then report NoColumn p else p).
  assert (I1 : pinv (pa_cache p1) (pa_table p1)) by (apply (when_report (none cols) NoColumn p I)).
  set (n := generate_name _ _ cols). eapply outcome_then; [apply (locate_step n p1 I1)|].
  destruct (index_created (locate n p1) n cols I1) as (t & c & i & R & S & M & _). rewrite R. cbn [bindr].
  eapply outcome_then; [exact S|]. assert (I2 : pinv (pa_cache (with_table t c (locate n p1))) (pa_table (with_table t c (locate n p1)))) by apply S.
  eapply outcome_then; [apply (step_indexes_at _ i (with_ix_ignore (excluded d m')) n I2); auto|].
  cbn. apply fold_step; [|intros; apply index_sub_step; assumption].
  apply (step_indexes_at _ i (with_ix_ignore (excluded d m')) n I2); auto.
Qed.

Lemma key_sub_step : forall d i p m, pinv (pa_cache p) (pa_table p) -> step q p (key_sub d i p m).
Proof.
  intros d i p m I. unfold key_sub. destruct (excluded d m); [apply step_refl; exact I|].
  destruct (beqb (m_name m) (B"deferrable")).
  { destruct (may_defer d); [apply step_constraints; auto|apply step_refl; exact I]. }
  destruct (beqb (m_name m) (B"deferred")); [|apply step_report; exact I].
  destruct (may_defer d); [apply step_constraints; auto|apply step_refl; exact I].
Qed.

Lemma parse_key_step : forall bad d columns p m, pinv (pa_cache p) (pa_table p) -> outcome bad p (parse_key d columns p m).
Proof.
  intros bad d columns p m I. unfold parse_key. destruct (parsed_total m) as (r & E & N). rewrite E.
  destruct r as [m'| |]; [|apply step_report; exact I|contradiction]. cbv zeta.
  set (cols := if own_value (m_value m') then _ else _).
  eapply outcome_then; [apply (when_report (none cols) NoColumn p I)|].
  set (p1 := if none cols then report NoColumn p else p).
  assert (I1 : pinv (pa_cache p1) (pa_table p1)) by (apply (when_report (none cols) NoColumn p I)).
  match goal with |- context [locate ?x p1] => set (n := x) end.
  assert (Ne : n <> []) by (unfold n; destruct d, (equal_fold UNIQUE (m_name m')); (apply generated_nonempty; discriminate) || discriminate).
  destruct (constraint_created p1 n (if equal_fold UNIQUE (m_name m') then UNIQUE else PRIMARY_KEY) cols Ne I1)
    as (t & c & i & R & S & M & _).
  change (pa_cache (locate n p1)) with (pa_cache p1). change (pa_table (locate n p1)) with (pa_table p1).
  rewrite R. cbn [bindr].
  eapply outcome_then; [exact S|]. assert (I2 : pinv (pa_cache (with_table t c (locate n p1))) (pa_table (with_table t c (locate n p1)))) by apply S.
  eapply outcome_then; [apply (step_constraints_at _ i (with_con_ignore (excluded d m')) n I2); auto|].
  cbn. apply fold_step; [|intros; apply key_sub_step; assumption].
  apply (step_constraints_at _ i (with_con_ignore (excluded d m')) n I2); auto.
Qed.

Lemma foldr_outcome : forall {A} bad (f : parser -> A -> result parser) p l, pinv (pa_cache p) (pa_table p) ->
  (forall p m, In m l -> pinv (pa_cache p) (pa_table p) -> outcome bad p (f p m)) -> outcome bad p (foldr f p l).
Proof.
  intros A bad f p l. revert p. induction l as [|m l IH]; intros p I H; [apply step_refl; exact I|].
  cbn. pose proof (H p m (or_introl eq_refl) I) as S. destruct (f p m) as [p1| |]; cbn in *; auto.
  eapply outcome_then; [exact S|]. apply IH; [apply S|]. intros; apply H; auto.
Qed.

Lemma set_reference_same : forall columns s c,
  con_name (set_reference columns s c) = con_name c /\ con_ignore (set_reference columns s c) = con_ignore c
  /\ con_type (set_reference columns s c) = con_type c.
Proof.
  intros columns s c. unfold set_reference. destruct (split_reference columns s) as [[[sc|] t] cols]; repeat split; reflexivity.
Qed.

Lemma foreign_sub_step : forall bad d own columns i p m, pinv (pa_cache p) (pa_table p) ->
  outcome bad p (foreign_sub d own columns i p m).
Proof.
  intros bad d own columns i p m I. unfold foreign_sub. destruct (excluded d m); [apply step_refl; exact I|].
  destruct (own && beqb (m_name m) (B"references")).
  { apply step_constraints; auto; intro c; apply set_reference_same. }
  destruct (beqb (m_name m) (B"onupdate")).
  { destruct (rule_of d (m_raw m)); [apply step_constraints; auto|apply step_report; exact I]. }
  destruct (beqb (m_name m) (B"ondelete")).
  { destruct (rule_of d (m_raw m)); [apply step_constraints; auto|apply step_report; exact I]. }
  destruct (beqb (m_name m) (B"deferrable")).
  { destruct (may_defer d); [apply step_constraints; auto|apply step_refl; exact I]. }
  destruct (beqb (m_name m) (B"deferred")).
  { destruct (may_defer d); [apply step_constraints; auto|apply step_refl; exact I]. }
  destruct (beqb (m_name m) (B"index")); [apply parse_index_step; exact I|apply step_report; exact I].
Qed.

Lemma parse_foreign_key_step : forall bad d p m, pinv (pa_cache p) (pa_table p) -> outcome bad p (parse_foreign_key d p m).
Proof.
  intros bad d p m I. unfold parse_foreign_key. destruct (parsed_total m) as (r & E & N). rewrite E.
  destruct r as [m'| |]; [|apply step_report; exact I|contradiction].
  destruct (negb (own_value (m_value m'))); [apply step_report; exact I|].
  destruct (none (m_subs m')); [apply step_report; exact I|]. cbv zeta.
  set (cols := split_byte _ _). set (n := generate_name _ _ cols).
  destruct (constraint_created p n FOREIGN_KEY cols (generated_nonempty FKey _ _ ltac:(discriminate)) I) as (t & c & i & R & S & M & _).
  change (pa_cache (locate n p)) with (pa_cache p). change (pa_table (locate n p)) with (pa_table p).
  rewrite R. cbn [bindr].
  eapply outcome_then; [exact S|]. assert (I2 : pinv (pa_cache (with_table t c (locate n p))) (pa_table (with_table t c (locate n p)))) by apply S.
  pose proof (step_constraints_at _ i (with_con_ignore (excluded d m')) n I2 M (fun _ => eq_refl) (fun _ => eq_refl)) as S2.
  eapply outcome_then; [exact S2|]. apply foldr_outcome; [apply S2|]. intros; apply foreign_sub_step; assumption.
Qed.

Lemma parse_references_step : forall bad d n p m, pinv (pa_cache p) (pa_table p) -> outcome bad p (parse_references d n p m).
Proof.
  intros bad d n p m I. unfold parse_references. destruct (parsed_total m) as (r & E & N). rewrite E.
  destruct r as [m'| |]; [|apply step_report; exact I|contradiction]. cbv zeta.
  eapply outcome_then; [apply (when_report (is_empty n) NoColumn p I)|].
  set (p1 := if is_empty n then report NoColumn p else p).
  assert (I1 : pinv (pa_cache p1) (pa_table p1)) by (apply (when_report (is_empty n) NoColumn p I)).
  set (name := generate_name _ _ [n]).
  destruct (constraint_created p1 name FOREIGN_KEY [n] (generated_nonempty FKey _ _ ltac:(discriminate)) I1) as (t & c & i & R & S & M & _).
  change (pa_cache (locate name p1)) with (pa_cache p1). change (pa_table (locate name p1)) with (pa_table p1).
  rewrite R. cbn [bindr].
  eapply outcome_then; [exact S|]. assert (I2 : pinv (pa_cache (with_table t c (locate name p1))) (pa_table (with_table t c (locate name p1)))) by apply S.
  pose proof (step_constraints_at _ i (with_con_ignore (excluded d m')) name I2 M (fun _ => eq_refl) (fun _ => eq_refl)) as S2.
  eapply outcome_then; [exact S2|].
  match goal with |- outcome _ ?x _ => assert (S3 : step q x (on_constraints i (set_reference [n] (m_value m')) x)) end.
  { apply step_constraints; [apply S2|..]; intro x; apply set_reference_same. }
  eapply outcome_then; [exact S3|]. apply foldr_outcome; [apply S3|]. intros; apply foreign_sub_step; assumption.
Qed.

End Steps.

(** ** The modifiers of columns and tables *)
(** A type whose parts cannot be read. *)
Definition bad_type (m : modifier) : Prop :=
  m_name m = B"type" /\ ~ In "("%char (m_raw m) /\ In ")"%char (m_raw m).

Lemma set_type_same : forall d ty c c', set_type d ty c = Ok c' -> col_name c' = col_name c /\ col_ignore c' = col_ignore c.
Proof.
  intros d ty c c' H. unfold set_type in H. destruct (normalize_column_type d ty) as [[[n a1] a2]| |]; try discriminate.
  cbn [bindr] in H.
  destruct (one_of n ["VARBINARY"; "BINARY"; "NVARCHAR"; "VARCHAR"; "CHAR"]%string).
  { destruct (negb (is_empty a1)); [injection H as <-; split; reflexivity|].
    destruct (negb (is_empty (col_length c))); injection H as <-; split; reflexivity. }
  destruct (one_of n ["NUMERIC"]%string); injection H as <-; split; reflexivity.
Qed.
Lemma set_type_total : forall d ty c, ~ (~ In "("%char ty /\ In ")"%char ty) -> exists c', set_type d ty c = Ok c'.
Proof.
  intros d ty c H. destruct (normalize_type_total d ty H) as [[[n a1] a2] E]. unfold set_type. rewrite E. cbn [bindr]. eauto.
Qed.

Lemma set_length_same : forall d n c, col_name (set_length d n c) = col_name c /\ col_ignore (set_length d n c) = col_ignore c.
Proof. intros d n c. unfold set_length. cbv zeta. destruct (is_empty n); [split; reflexivity|]. destruct d; split; reflexivity. Qed.

Definition outcome2 (bad : Prop) (p : parser) (r : result (parser * list bytes)) : Prop :=
  match r with Ok (p', _) => step true p p' | Err => False | Panic => bad end.
Lemma outcome_pair : forall bad p r ds, outcome true bad p r -> outcome2 bad p (bindr r (fun p => Ok (p, ds))).
Proof. intros bad p [p'| |] ds O; exact O. Qed.

Lemma column_modifier_step : forall flt d n i p ds m a, pinv (pa_cache p) (pa_table p) ->
  ca_columns (pa_cache p) [tb_schema (pa_table p); tb_name (pa_table p); n] = Some i ->
  nth_error (tb_columns (pa_table p)) i = Some a ->
  outcome2 (bad_type m) p (column_modifier flt d n i (p, ds) m).
Proof.
  intros flt d n i p ds m a I M Ha. unfold column_modifier.
  set (m' := if none (m_dialects m) then _ else m).
  assert (En : m_name m' = m_name m) by (unfold m'; destruct (none (m_dialects m)); reflexivity).
  assert (Er : m_raw m' = m_raw m) by (unfold m'; destruct (none (m_dialects m)); reflexivity).
  clearbody m'. destruct (excluded d m'); [apply step_refl; exact I|].
  destruct (beqb (m_name m') (B"type")) eqn:T.
  { rewrite Ha. destruct (set_type d (m_raw m') a) as [c| |] eqn:Ec; cbn [bindr].
    - apply set_type_same in Ec. destruct Ec as (Ec & _). destruct I as (I1 & I2 & I3 & I4).
      destruct (proj1 I1 _ _ M) as (a' & Ha' & Na & _). rewrite Ha in Ha'. injection Ha' as <-.
      constructor; auto.
      + split; [|auto]. cbn [on_columns pa_table with_table with_columns tb_columns pa_cache]. unfold change_nth. rewrite Ha.
        replace (set_nth i c (tb_columns (pa_table p))) with (change_nth i (fun x => if beqb (col_name x) n then c else x) (tb_columns (pa_table p))).
        * eapply (good_change_at _ _ _ _ _ _ n); [exact I1|exact M|]. intro x. destruct (beqb_spec (col_name x) n) as [->|]; [|reflexivity].
          congruence.
        * unfold change_nth. rewrite Ha, Na, beqb_refl. reflexivity.
      + apply frame_t_refl.
      + exists []. cbn. rewrite app_nil_r. reflexivity.
    - unfold set_type in Ec. destruct (normalize_column_type d (m_raw m')) as [[[? ?] ?]| |] eqn:Ez; try discriminate.
      pose proof (normalize_type_panic d (m_raw m')) as P. unfold normalize_column_type in Ez.
      pose proof (split_type_no_err (m_raw m')). destruct (split_type (m_raw m')) as [[[[? ?] ?] ?]| |]; congruence.
    - unfold set_type in Ec. destruct (normalize_column_type d (m_raw m')) as [[[? ?] ?]| |] eqn:Ez; try discriminate.
      apply normalize_type_panic in Ez. split; [apply beqb_eq in T; congruence|]. rewrite <- Er. exact Ez. }
  Ltac one := apply step_columns; [assumption|intro; reflexivity..].
  Ltac stay := apply step_refl; assumption.
  destruct (beqb (m_name m') (B"len")); [apply step_columns; [assumption|intro c; apply set_length_same..]|].
  destruct (beqb (m_name m') (B"auto_increment")); [destruct d; try stay; one|].
  destruct (beqb (m_name m') (B"autoincrement")); [destruct d; try stay; one|].
  destruct (beqb (m_name m') (B"identity")); [destruct d; try stay; one|].
  destruct (beqb (m_name m') (B"alwaysidentity")); [destruct d; try stay; one|].
  destruct (beqb (m_name m') (B"notnull")); [one|].
  destruct (beqb (m_name m') (B"onupdatecurrenttimestamp")); [destruct d; try stay; one|].
  destruct (beqb (m_name m') (B"collate")); [one|].
  destruct (beqb (m_name m') (B"default")); [one|].
  destruct (beqb (m_name m') (B"generated")); [one|].
  destruct (beqb (m_name m') (B"dialect")).
  { destruct (is_empty (m_raw m')); [apply step_report; assumption|].
    eapply (step_columns_at true p i _ n); [assumption|exact M|reflexivity]. }
  destruct (beqb (m_name m') (B"index")); [apply outcome_pair, parse_index_step; assumption|].
  destruct (beqb (m_name m') (B"primarykey") || beqb (m_name m') (B"unique")); [apply outcome_pair, parse_key_step; assumption|].
  destruct (beqb (m_name m') (B"foreignkey")); [apply outcome_pair, parse_foreign_key_step; assumption|].
  destruct (beqb (m_name m') (B"references")); [apply outcome_pair, parse_references_step; assumption|].
  apply step_report; assumption.
Qed.

Lemma step_weak : forall p p', step true p p' -> step false p p'.
Proof. intros p p' [A1 A2 A3 A4 A5 A6 A7 A8]. constructor; auto. Qed.

Lemma column_modifiers_step : forall flt d n i ms p ds, pinv (pa_cache p) (pa_table p) ->
  ca_columns (pa_cache p) [tb_schema (pa_table p); tb_name (pa_table p); n] = Some i ->
  outcome2 (Exists bad_type ms) p (foldr (column_modifier flt d n i) (p, ds) ms).
Proof.
  intros flt d n i. induction ms as [|m ms IH]; intros p ds I M; [apply step_refl; exact I|].
  cbn [foldr]. destruct (proj1 (proj1 I) _ _ M) as (a & Ha & _).
  pose proof (column_modifier_step flt d n i p ds m a I M Ha) as S.
  destruct (column_modifier flt d n i (p, ds) m) as [[p1 ds1]| |]; cbn [bindr outcome2] in *; [|contradiction|left; exact S].
  assert (M1 : ca_columns (pa_cache p1) [tb_schema (pa_table p1); tb_name (pa_table p1); n] = Some i).
  { rewrite (s_schema _ _ _ S), (s_name _ _ _ S), (s_columns _ _ _ S eq_refl). exact M. }
  pose proof (IH p1 ds1 (s_inv _ _ _ S) M1) as S2.
  destruct (foldr (column_modifier flt d n i) (p1, ds1) ms) as [[p2 ds2]| |]; cbn [outcome2] in *; [|contradiction|right; exact S2].
  eapply step_trans; eassumption.
Qed.

Lemma parse_column_step : forall flt d n ty p ms, pinv (pa_cache p) (pa_table p) ->
  outcome false (Exists bad_type ms) p (parse_column flt d n ty p ms).
Proof.
  intros flt d n ty p ms I. unfold parse_column.
  destruct (column_created p n ty I) as (t & c & i & a & R & S & M & Ha & Na & _). rewrite R. cbn [bindr].
  set (p1 := with_table t c p) in *. assert (I1 : pinv (pa_cache p1) (pa_table p1)) by apply S.
  pose proof (step_columns true p1 i (with_enum (beqb ty (B"sq.EnumField"))) I1 (fun _ => eq_refl) (fun _ => eq_refl)) as S1.
  set (p2 := on_columns i (with_enum (beqb ty (B"sq.EnumField"))) p1) in *.
  pose proof (column_modifiers_step flt d n i ms p2 [] (s_inv _ _ _ S1) M) as S2.
  destruct (foldr (column_modifier flt d n i) (p2, []) ms) as [[p3 ds]| |]; cbn [outcome2 bindr outcome] in *; [|contradiction|exact S2].
  eapply step_trans; [exact S|]. eapply step_trans; [apply step_weak; exact S1|]. apply step_weak. exact S2.
Qed.

Lemma pinv_table : forall c t b v, pinv c t ->
  pinv c (Table (tb_schema t) (tb_name t) (tb_sql t) v (tb_columns t) (tb_constraints t) (tb_indexes t) b).
Proof. intros c t b v I. exact I. Qed.

Lemma table_modifier_step : forall d p ds m, pinv (pa_cache p) (pa_table p) -> outcome2 False p (table_modifier d (p, ds) m).
Proof.
  intros d p ds m I. unfold table_modifier. set (m' := if none (m_dialects m) then _ else m). clearbody m'.
  destruct (beqb (m_name m') (B"dialect")).
  { destruct (is_empty (m_raw m')); [apply step_report; assumption|].
    constructor; auto; [apply frame_t_refl|]. exists []. cbn. rewrite app_nil_r. reflexivity. }
  destruct (beqb (m_name m') (B"index")); [apply outcome_pair, parse_index_step; assumption|].
  destruct (beqb (m_name m') (B"primarykey") || beqb (m_name m') (B"unique")); [apply outcome_pair, parse_key_step; assumption|].
  destruct (beqb (m_name m') (B"foreignkey")); [apply outcome_pair, parse_foreign_key_step; assumption|].
  destruct (beqb (m_name m') (B"virtual")); [|apply step_report; assumption].
  destruct d; try (apply step_refl; assumption).
  constructor; auto; [apply frame_t_refl|]. exists []. cbn. rewrite app_nil_r. reflexivity.
Qed.
Lemma parse_table_step : forall d p ms, pinv (pa_cache p) (pa_table p) -> outcome true False p (parse_table d p ms).
Proof.
  intros d p ms I. unfold parse_table. set (ds := @nil bytes) at 1. clearbody ds. revert p ds I.
  induction ms as [|m ms IH]; intros p ds I; [apply step_refl; exact I|].
  cbn [foldr]. pose proof (table_modifier_step d p ds m I) as S.
  destruct (table_modifier d (p, ds) m) as [[p1 ds1]| |]; cbn [bindr outcome2] in *; try contradiction.
  eapply outcome_then; [exact S|]. apply IH. apply S.
Qed.

Definition bad_field (f : field) : Prop := Exists bad_type (f_mods f).
Lemma outcome_weak : forall (a b : Prop) p r, outcome true a p r -> (a -> b) -> outcome false b p r.
Proof. intros a b p [p'| |] O H; cbn in *; auto. apply step_weak. exact O. Qed.

Lemma parse_field_step : forall flt d p f, pinv (pa_cache p) (pa_table p) -> outcome false (bad_field f) p (parse_field flt d p f).
Proof.
  intros flt d p f I. unfold parse_field.
  destruct (_ || _).
  { eapply outcome_weak; [apply parse_table_step; exact I|]. intros []. }
  cbv zeta. set (n := if is_empty (f_tag f) then _ else _).
  destruct (field_type d (f_type f)) as [[ty len]|]; [|apply step_refl; exact I].
  destruct (is_empty len); [apply parse_column_step; exact I|].
  destruct (column_created p n ty I) as (t & c & i & a & R & S & M & Ha & Na & _). rewrite R. cbn [bindr].
  eapply outcome_then; [exact S|]. set (p1 := with_table t c p) in *.
  pose proof (step_columns false p1 i (with_length len) (s_inv _ _ _ S) (fun _ => eq_refl) (fun _ => eq_refl)) as S1.
  eapply outcome_then; [exact S1|]. apply parse_column_step. apply S1.
Qed.
