(** The names that are in use while a migration runs. *)
From Coq Require Import Lia.
From Verif Require Import GoStr GoStrFacts ModelCatalog ModelCache CacheFacts ModelDdl ModelDiff ModelDiffSql SpecDiff DiffLookup DiffFacts SpecApply ApplyFacts.

Definition temp_name (t : table) (c : column) : bytes := tb_name t ++ B"_" ++ col_name c ++ B"_not_null_check".

Section Names.
Context (d : dialect) (cur : bytes) (src dest : list schema).
Hypothesis Os : orderly src.
Hypothesis Od : orderly dest.
Hypothesis CR : creatable d cur dest.
Hypothesis SEP : separate d src dest.

Definition either (l : list schema) : Prop := l = src \/ l = dest.
(** The constraints and indexes of the database are called like those of a catalog; the
    others are temporary. *)
Definition known_constraint (q : qname) (c : constraint) : Prop :=
  (exists l t c0, either l /\ located l q t /\ In c0 (tb_constraints t) /\ con_name c0 = con_name c /\ con_type c0 = con_type c)
  \/ (d = Postgres /\ con_type c = CHECK /\ exists t b, located dest q t /\ In b (tb_columns t) /\ con_name c = temp_name t b).
Definition known_index (q : qname) (i : index) : Prop :=
  (exists l t i0, either l /\ located l q t /\ In i0 (tb_indexes t) /\ ix_name i0 = ix_name i)
  \/ (d = Postgres /\ exists t c, located dest q t /\ In c (tb_constraints t) /\ unique_key c /\ con_name c = ix_name i).
Definition names_ok (q : qname) (dt : dtable) : Prop :=
  (exists l t, either l /\ located l q t)
  /\ (forall n c, dt_constraints dt n = Some c -> con_name c = n /\ known_constraint q c)
  /\ (forall n i, dt_indexes dt n = Some i -> ix_name i = n /\ known_index q i).
(** The foreign keys of the database belong to both catalogs. *)
Definition kept_key (q : qname) (n : bytes) (c : constraint) : Prop :=
  exists s t f g, located src q s /\ located dest q t /\ In f (tb_constraints s) /\ In g (tb_constraints t)
    /\ con_name f = n /\ con_name g = n /\ foreign g /\ same_constraint cur c g.
Definition keys_ok (q : qname) (dt : dtable) : Prop :=
  forall n c, dt_constraints dt n = Some c -> foreign c -> kept_key q n c.
Definition all_tables_ok (P : qname -> dtable -> Prop) (x : database) : Prop := forall q dt, db_tables x q = Some dt -> P q dt.

Lemma ok_set_table : forall P x q dt, all_tables_ok P x -> P q dt -> all_tables_ok P (set_table x q (Some dt)).
Proof.
  intros P x q dt A H p dt' E. cbn in E. destruct (qeqb_spec p q) as [->|].
  - injection E as <-. exact H.
  - apply A. exact E.
Qed.
Lemma ok_unset_table : forall P x q, all_tables_ok P x -> all_tables_ok P (set_table x q None).
Proof.
  intros P x q A p dt' E. cbn in E. destruct (qeqb_spec p q) as [->|]; [discriminate|]. apply A. exact E.
Qed.

Lemma object_either : forall l o, either l -> object_of l o -> object_of src o \/ object_of dest o.
Proof. intros l o [->| ->] H; auto. Qed.

(** Why two objects can have the same entry. *)
Lemma clash : forall x o o' k, all_tables_ok names_ok x -> object_of dest o -> holds x o' ->
  In k (entries_of d o) -> In k (entries_of d o') ->
  slot o = slot o' \/ exists q c i, o = OConstraint q c /\ o' = OIndex q i /\ con_name c = ix_name i /\ unique_key c.
Proof.
  intros x o o' k N Ho H K K'. destruct o' as [q|q c|q i].
  - left. destruct H as (dt & H). destruct (N _ _ H) as ((l & t & El & Hl) & _).
    refine (SEP _ _ k (or_intror Ho) (object_either l _ El _) K K'). exists t. exact Hl.
  - destruct H as (dt & H & Hc). destruct (N _ _ H) as (_ & NC & _). destruct (NC _ _ Hc) as (_ & [(l & t & c0 & El & Hl & Hc0 & En & Et)|(-> & Et & t & b & Ht & Hb & En)]).
    + left. assert (E : entries_of d (OConstraint q c) = entries_of d (OConstraint q c0)).
      { unfold entries_of, is_a_key. rewrite En, Et. reflexivity. }
      rewrite E in K'. cbn [slot]. rewrite <- En.
      refine (SEP o (OConstraint q c0) k (or_intror Ho) (object_either l _ El _) K K'). exists t. auto.
    + exfalso. cbn [entries_of] in K'. unfold is_a_key in K'. rewrite Et in K'. cbn in K'. destruct K' as [<-|[]].
      destruct o as [q0|q0 c0|q0 i0]; cbn in K.
      * destruct K as [K|[]]. discriminate.
      * destruct K as [K|K].
        2: { destruct (is_a_key c0); [|contradiction]. destruct K as [K|[]]. discriminate. }
        injection K as K1 K2 K3. assert (q0 = q) by (destruct q0, q; cbn in *; congruence). subst q0.
        destruct Ho as (t' & Ht' & Hc'). assert (t' = t) by (eapply located_one; [apply orderly_tables; exact Od|eassumption|eassumption]). subst t'.
        destruct (CR q t Ht) as (_ & _ & CC & _). destruct (CC b Hb) as (_ & _ & _ & _ & CP). destruct (CP eq_refl) as (_ & CP').
        apply (CP' c0 Hc'). rewrite K3. exact En.
      * destruct K as [K|[]]. discriminate.
  - destruct H as (dt & H & Hi). destruct (N _ _ H) as (_ & _ & NI). destruct (NI _ _ Hi) as (_ & [(l & t & i0 & El & Hl & Hi0 & En)|(-> & t & c & Ht & Hc & Kc & En)]).
    + left. assert (E : entries_of d (OIndex q i) = entries_of d (OIndex q i0)).
      { unfold entries_of. rewrite En. reflexivity. }
      rewrite E in K'. cbn [slot]. rewrite <- En.
      refine (SEP o (OIndex q i0) k (or_intror Ho) (object_either l _ El _) K K'). exists t. auto.
    + right. cbn [entries_of] in K'. destruct K' as [<-|[]].
      assert (Hoc : object_of dest (OConstraint q c)) by (exists t; auto).
      assert (Kc' : In (Indexes, fst q, None, ix_name i) (entries_of Postgres (OConstraint q c))).
      { cbn [entries_of]. right. rewrite (proj2 (is_a_key_spec c) Kc). left. rewrite En. reflexivity. }
      pose proof (SEP o _ _ (or_intror Ho) (or_intror Hoc) K Kc') as E. cbn [slot] in E.
      destruct o as [q0|q0 c0|q0 i0]; cbn [slot] in E; try discriminate E. injection E as -> E.
      exists q, c0, i. split; [reflexivity|]. split; [reflexivity|]. split; [congruence|].
      cbn [entries_of] in K. destruct K as [K|K]; [discriminate|]. destruct (is_a_key c0) eqn:I0; [|contradiction]. apply is_a_key_spec. exact I0.
Qed.
Lemma fresh_table : forall x q t, all_tables_ok names_ok x -> located dest q t -> db_tables x q = None -> fresh d x (OTable q).
Proof.
  intros x q t N Ht E o' k H K K'. destruct (clash x (OTable q) o' k N) as [S|(? & ? & ? & Z & _)]; try assumption; [exists t; exact Ht| |discriminate].
  destruct o' as [q'|q' c|q' i]; cbn [slot] in S; try discriminate. injection S as <-. destruct H as (dt & H). congruence.
Qed.
Lemma fresh_constraint : forall x q t c, all_tables_ok names_ok x -> located dest q t -> In c (tb_constraints t) ->
  (forall dt, db_tables x q = Some dt -> dt_constraints dt (con_name c) = None /\ (unique_key c -> dt_indexes dt (con_name c) = None)) ->
  fresh d x (OConstraint q c).
Proof.
  intros x q t c N Ht Hc E o' k H K K'.
  destruct (clash x (OConstraint q c) o' k N) as [S|(q' & c' & i & Z & -> & Z' & Kc)]; try assumption; [exists t; auto| |].
  - destruct o' as [q'|q' c'|q' i]; cbn [slot] in S; try discriminate. injection S as <- S. destruct H as (dt & H & H').
    destruct (E dt H) as (E1 & _). rewrite S in E1. congruence.
  - injection Z as <- <-. destruct H as (dt & H & H'). destruct (E dt H) as (_ & E1). rewrite <- Z' in H'. rewrite (E1 Kc) in H'. discriminate.
Qed.
Lemma fresh_index : forall x q t i dt, all_tables_ok names_ok x -> located dest q t -> In i (tb_indexes t) ->
  db_tables x q = Some dt -> dt_indexes dt (ix_name i) = None -> fresh d x (OIndex q i).
Proof.
  intros x q t i dt N Ht Hi Hx E o' k H K K'.
  destruct (clash x (OIndex q i) o' k N) as [S|(? & ? & ? & Z & _)]; try assumption; [exists t; auto| |discriminate].
  destruct o' as [q'|q' c'|q' i']; cbn [slot] in S; try discriminate. injection S as <- S. destruct H as (dt' & H & H').
  rewrite Hx in H. injection H as <-. rewrite S in E. congruence.
Qed.
Lemma fresh_check : forall x q dt name, d = Postgres -> all_tables_ok names_ok x -> db_tables x q = Some dt ->
  dt_constraints dt name = None -> fresh d x (OConstraint q (a_check q name)).
Proof.
  intros x q dt name -> N Hx E o' k H K K'. cbn in K. destruct K as [<-|[]].
  destruct o' as [q'|q' c'|q' i']; cbn in K'.
  - destruct K' as [K'|[]]. discriminate.
  - destruct K' as [K'|K'].
    2: { destruct (is_a_key c'); [|contradiction]. destruct K' as [K'|[]]. discriminate. }
    injection K' as K1 K2 K3. destruct H as (dt' & H & H'). assert (q' = q) by (destruct q', q; cbn in *; congruence). subst q'.
    rewrite Hx in H. injection H as <-. congruence.
  - destruct K' as [K'|[]]. discriminate.
Qed.

(** Facts about the foreign keys that are kept. *)
Lemma kept_target : forall q n c, kept_key q n c -> exists s t g, located src q s /\ located dest q t /\ In g (tb_constraints t)
  /\ con_name g = n /\ foreign g /\ con_columns c = con_columns g /\ target cur c = target cur g /\ con_refcolumns c = con_refcolumns g
  /\ (exists f, In f (tb_constraints s) /\ con_name f = n).
Proof.
  intros q n c (s & t & f & g & Hs & Ht & Hf & Hg & Ef & Eg & F & (S1 & S2 & S3)). destruct (S3 F) as (S4 & S5).
  exists s, t, g. repeat (split; [assumption|]). exists f. auto.
Qed.
Lemma kept_columns : forall q n c t, located dest q t -> kept_key q n c -> forall m, In m (con_columns c) -> In m (map col_name (tb_columns t)).
Proof.
  intros q n c t Ht K m Hm. destruct (kept_target _ _ _ K) as (s & t' & g & _ & Ht' & Hg & _ & F & E & _).
  assert (t' = t) by (eapply located_one; [apply orderly_tables; exact Od|eassumption|eassumption]). subst t'.
  destruct (CR q t Ht) as (_ & _ & _ & CK & _). destruct (CK g Hg (or_intror F)) as (_ & CC). apply CC. rewrite <- E. exact Hm.
Qed.
Lemma kept_refers : forall q n c, kept_key q n c -> exists u, located dest (target cur c) u
  /\ forall m, In m (con_refcolumns c) -> In m (map col_name (tb_columns u)).
Proof.
  intros q n c K. destruct (kept_target _ _ _ K) as (s & t & g & _ & Ht & Hg & _ & F & _ & E & E' & _).
  destruct (CR q t Ht) as (_ & _ & _ & _ & _ & _ & CF & _). destruct (CF g Hg F) as (_ & u & r & Hu & Hc & _).
  exists u. rewrite E, E'. auto.
Qed.
End Names.
