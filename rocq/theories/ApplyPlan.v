(** What a plan for orderly catalogs contains. *)
From Coq Require Import Lia Permutation.
From Verif Require Import GoStr GoStrFacts ModelCatalog ModelCache CacheFacts ModelDdl ModelDiff ModelDiffSql SpecDiff DiffLookup DiffFacts DiffSelf
  DiffPlan DiffSegments DiffDrops DiffKeys DiffCreate DiffOrder SpecApply ApplyFacts.

(** ** Lists *)
Lemma filter_all : forall {A} (f : A -> bool) l, (forall a, In a l -> f a = true) -> filter f l = l.
Proof.
  intros A f l H. induction l as [|a l IH]; [reflexivity|]. cbn [filter]. rewrite (H a (or_introl eq_refl)). f_equal.
  apply IH. intros b Hb. apply H. right. exact Hb.
Qed.
Lemma NoDup_flat_map_by : forall {A C K P} (k : A -> P) (g : A -> list C) (f : C -> K) (h : K -> P) l,
  NoDup (map k l) -> (forall a, In a l -> NoDup (map f (g a))) -> (forall a c, In a l -> In c (g a) -> h (f c) = k a) ->
  NoDup (map f (flat_map g l)).
Proof.
  intros A C K P k g f h l. induction l as [|a l IH]; intros N G H; [constructor|]. cbn [flat_map]. rewrite map_app.
  cbn [map] in N. inversion N as [|? ? N1 N2]; subst. apply NoDup_join.
  - apply G. left. reflexivity.
  - apply IH; [exact N2| |]; intros; [apply G|apply H]; cbn; auto.
  - intros x H1 H2. apply in_map_iff in H1. destruct H1 as (c & <- & H1). apply in_map_iff in H2. destruct H2 as (c' & E & H2).
    apply in_flat_map in H2. destruct H2 as (a' & Ha' & H2). apply N1.
    rewrite <- (H a c (or_introl eq_refl) H1), <- E, (H a' c' (or_intror Ha') H2). apply in_map. exact Ha'.
Qed.
Lemma NoDup_permuted : forall {A C} (f : A -> C) l l', Permutation l l' -> NoDup (map f l') -> NoDup (map f l).
Proof. intros A C f l l' P N. eapply Permutation_NoDup; [|exact N]. apply Permutation_map. symmetry. exact P. Qed.
(** At most one element for each. *)
Lemma NoDup_proj : forall {A C K P} (f : A -> P) (g : A -> list C) (h : C -> K) (r : K -> P) l,
  NoDup (map f l) -> (forall a, NoDup (map h (g a))) -> (forall a c, In c (g a) -> r (h c) = f a) -> NoDup (map h (flat_map g l)).
Proof. intros A C K P f g h r l N G H. apply (NoDup_flat_map_by f g h r); auto. Qed.

(** ** Orderly catalogs *)
Section One.
Context (l : list schema) (O : orderly l).
Lemma all_live : live_schemas l = l.
Proof. apply filter_all. intros s Hs. rewrite (proj2 (proj1 (proj2 O) s Hs)). reflexivity. Qed.
Lemma all_live_tables : forall s, In s l -> live_tables s = sc_tables s.
Proof.
  intros s Hs. apply filter_all. intros t Ht. rewrite (proj1 (proj2 (proj2 O) (sc_name s, tb_name t) t (ex_intro _ s (conj Hs (conj Ht eq_refl))))). reflexivity.
Qed.
Lemma all_live_keys : forall q t, located l q t -> live_fkeys t = filter is_fkey (tb_constraints t).
Proof.
  intros q t H. unfold live_fkeys. apply filter_in_ext. intros c Hc. rewrite (proj1 (con_facts _ O _ _ _ H Hc)). cbn. rewrite ?andb_true_r. reflexivity.
Qed.
Lemma find_schema_called : forall n, find_schema l n = called sc_name l n.
Proof. intro n. apply pick_called; [exact (proj1 (orderly_tables _ O))|]. intros s Hs. apply (proj1 (proj2 O) s Hs). Qed.
Lemma find_table_called : forall s n, In s l -> find_table s n = called tb_name (sc_tables s) n.
Proof.
  intros s n Hs. apply pick_called; [exact (proj1 (proj2 (orderly_tables _ O) s Hs))|]. intros t Ht.
  apply (proj2 (proj2 O) (sc_name s, tb_name t) t). exists s. auto.
Qed.
Lemma schema_named : forall s, In s l -> is_empty (sc_name s) = false.
Proof. intros s Hs. destruct (proj1 (proj2 O) s Hs) as (N & _). destruct (sc_name s); [congruence|reflexivity]. Qed.
Lemma located_in : forall s t, In s l -> In t (sc_tables s) -> located l (sc_name s, tb_name t) t.
Proof. intros s t Hs Ht. exists s. auto. Qed.
(** A table of a schema that is known. *)
Lemma located_here : forall s n t, In s l -> (located l (sc_name s, n) t <-> In t (sc_tables s) /\ tb_name t = n).
Proof.
  intros s n t Hs. split.
  - intros (s' & Hs' & Ht & E). injection E as E1 E2. assert (s' = s).
    { apply (NoDup_map_inj_on sc_name l); auto. exact (proj1 (orderly_tables _ O)). }
    subst s'. auto.
  - intros (Ht & <-). apply located_in; assumption.
Qed.
Lemma located_called : forall s n, In s l -> forall t, called tb_name (sc_tables s) n = Some t <-> located l (sc_name s, n) t.
Proof.
  intros s n Hs t. rewrite (located_here s n t Hs). split.
  - intro H. apply called_some in H. exact H.
  - intros (Ht & <-). apply called_in; [|exact Ht]. exact (proj1 (proj2 (orderly_tables _ O) s Hs)).
Qed.
End One.

(** ** Changes *)
Section Changes.
Context (src dest : list schema) (Os : orderly src) (Od : orderly dest) (alter : table -> table -> list change).

Definition nowhere (l : list schema) (q : qname) : Prop := forall t, ~ located l q t.
Lemma changes_are : forall c, In c (all_changes alter true src dest) <->
  (exists s, In s src /\ ~ In (sc_name s) (map sc_name dest) /\ c = ChDropSchema s)
  \/ (exists s, In s dest /\ ~ In (sc_name s) (map sc_name src) /\ c = ChCreateSchema (sc_name s))
  \/ (exists q s, located src q s /\ nowhere dest q
        /\ ((In (fst q) (map sc_name dest) /\ c = ChDropTable s) \/ exists k, In k (tb_constraints s) /\ foreign k /\ c = ChDropFkey k))
  \/ (exists q t, located dest q t /\ nowhere src q
        /\ (c = ChCreateTable t \/ exists k, In k (tb_constraints t) /\ foreign k /\ c = ChFastFkey k))
  \/ (exists q s t, located src q s /\ located dest q t /\ In c (alter s t)).
Proof.
  intro c. unfold all_changes. cbn [keep]. rewrite (all_live _ Os), (all_live _ Od), in_app_iff, !in_flat_map.
  assert (FK : forall l q t k (O : orderly l), located l q t -> (In k (live_fkeys t) <-> In k (tb_constraints t) /\ foreign k)).
  { intros l q t k O H. rewrite (all_live_keys _ O _ _ H), filter_In, is_fkey_spec. reflexivity. }
  assert (NS : forall l s t (O : orderly l), ~ In (sc_name s) (map sc_name l) -> nowhere l (sc_name s, tb_name t)).
  { intros l s t _ N t' (s' & Hs' & _ & E). injection E as E _. apply N. rewrite E. apply in_map. exact Hs'. }
  split.
  - intros [(s & Hs & H)|(ds & Hd & H)].
    + unfold drop_schema_changes in H. rewrite (find_schema_called _ Od) in H. destruct (called sc_name dest (sc_name s)) eqn:E; [contradiction|].
      apply (proj1 (called_none_map _ _ _)) in E. rewrite (schema_named _ Os _ Hs) in H. apply in_app_or in H. destruct H as [[<-|[]]|H]; [eauto 6|].
      rewrite (all_live_tables _ Os _ Hs) in H. apply in_flat_map in H. destruct H as (t & Ht & H). apply in_map_iff in H.
      destruct H as (k & <- & H). apply (FK src (sc_name s, tb_name t) t k Os) in H; [|apply located_in; assumption].
      right. right. left. exists (sc_name s, tb_name t), t. split; [apply located_in; assumption|]. split; [apply NS; assumption|]. right. exists k. tauto.
    + unfold schema_changes in H. rewrite (find_schema_called _ Os) in H. destruct (called sc_name src (sc_name ds)) as [ss|] eqn:E.
      * apply called_some in E. destruct E as (Hs & E). cbn [keep] in H. rewrite (all_live_tables _ Os _ Hs), (all_live_tables _ Od _ Hd) in H.
        apply in_app_or in H. destruct H as [H|H]; apply in_flat_map in H; destruct H as (t & Ht & H).
        -- unfold drop_table_changes in H. rewrite (find_table_called _ Od _ _ Hd) in H. destruct (called tb_name (sc_tables ds) (tb_name t)) eqn:C; [contradiction|].
           right. right. left. exists (sc_name ss, tb_name t), t. split; [apply located_in; assumption|]. split.
           { intros t' L. rewrite E in L. apply (located_called _ Od _ _ Hd) in L. congruence. }
           destruct H as [<-|H]; [left; split; [cbn; rewrite E; apply in_map; exact Hd|reflexivity]|].
           apply in_map_iff in H. destruct H as (k & <- & H). apply (FK src (sc_name ss, tb_name t) t k Os) in H; [|apply located_in; assumption]. right. exists k. tauto.
        -- unfold table_changes in H. rewrite (find_table_called _ Os _ _ Hs) in H. destruct (called tb_name (sc_tables ss) (tb_name t)) as [s|] eqn:C.
           ++ right. right. right. right. exists (sc_name ds, tb_name t), s, t. split; [|split; [apply located_in; assumption|exact H]].
              rewrite <- E. apply (located_called _ Os _ _ Hs). exact C.
           ++ right. right. right. left. exists (sc_name ds, tb_name t), t. split; [apply located_in; assumption|]. split.
              { intros t' L. rewrite <- E in L. apply (located_called _ Os _ _ Hs) in L. congruence. }
              destruct H as [<-|H]; [auto|]. apply in_map_iff in H. destruct H as (k & <- & H).
              apply (FK dest (sc_name ds, tb_name t) t k Od) in H; [|apply located_in; assumption]. right. exists k. tauto.
      * apply (proj1 (called_none_map _ _ _)) in E. rewrite (schema_named _ Od _ Hd) in H. apply in_app_or in H. destruct H as [[<-|[]]|H]; [eauto 8|].
        rewrite (all_live_tables _ Od _ Hd) in H. apply in_flat_map in H. destruct H as (t & Ht & H).
        right. right. right. left. exists (sc_name ds, tb_name t), t. split; [apply located_in; assumption|]. split; [apply NS; assumption|].
        destruct H as [<-|H]; [auto|]. apply in_map_iff in H. destruct H as (k & <- & H).
        apply (FK dest (sc_name ds, tb_name t) t k Od) in H; [|apply located_in; assumption]. right. exists k. tauto.
  - intros [(s & Hs & N & ->)|[(s & Hs & N & ->)|[(q & s & L & N & H)|[(q & t & L & N & H)|(q & s & t & Ls & Lt & H)]]]].
    + left. exists s. split; [exact Hs|]. unfold drop_schema_changes. rewrite (find_schema_called _ Od), (proj2 (called_none_map _ _ _) N), (schema_named _ Os _ Hs). left. reflexivity.
    + right. exists s. split; [exact Hs|]. unfold schema_changes. rewrite (find_schema_called _ Os), (proj2 (called_none_map _ _ _) N), (schema_named _ Od _ Hs). left. reflexivity.
    + destruct L as (ss & Hs & Ht & ->). destruct (called sc_name dest (sc_name ss)) as [ds|] eqn:E.
      * apply called_some in E. destruct E as (Hd & E). right. exists ds. split; [exact Hd|]. unfold schema_changes.
        rewrite E, (find_schema_called _ Os), (called_in _ _ _ (proj1 (orderly_tables _ Os)) Hs). cbn [keep]. apply in_or_app. left.
        rewrite (all_live_tables _ Os _ Hs). apply in_flat_map. exists s. split; [exact Ht|]. unfold drop_table_changes.
        rewrite (find_table_called _ Od _ _ Hd). destruct (called tb_name (sc_tables ds) (tb_name s)) as [t|] eqn:C.
        { exfalso. apply (located_called _ Od _ _ Hd) in C. rewrite E in C. apply (N t C). }
        destruct H as [(_ & ->)|(k & Hk & F & ->)]; [left; reflexivity|]. right. apply in_map. apply (FK src (sc_name ss, tb_name s) s k Os); [apply located_in; assumption|auto].
      * pose proof (proj1 (called_none_map _ _ _) E) as E'. destruct H as [(Z & _)|(k & Hk & F & ->)]; [contradiction (E' Z)|].
        left. exists ss. split; [exact Hs|]. unfold drop_schema_changes. rewrite (find_schema_called _ Od), E. apply in_or_app. right.
        rewrite (all_live_tables _ Os _ Hs). apply in_flat_map. exists s. split; [exact Ht|]. apply in_map. apply (FK src (sc_name ss, tb_name s) s k Os); [apply located_in; assumption|auto].
    + destruct L as (ds & Hd & Ht & ->). right. exists ds. split; [exact Hd|]. unfold schema_changes. rewrite (find_schema_called _ Os).
      assert (H' : In c (create_changes t)).
      { destruct H as [->|(k & Hk & F & ->)]; [left; reflexivity|]. right. apply in_map. apply (FK dest (sc_name ds, tb_name t) t k Od); [apply located_in; assumption|auto]. }
      destruct (called sc_name src (sc_name ds)) as [ss|] eqn:E.
      * apply called_some in E. destruct E as (Hs & E). apply in_or_app. right. rewrite (all_live_tables _ Od _ Hd). apply in_flat_map. exists t. split; [exact Ht|].
        unfold table_changes. rewrite (find_table_called _ Os _ _ Hs). destruct (called tb_name (sc_tables ss) (tb_name t)) as [s|] eqn:C; [|exact H'].
        exfalso. apply (located_called _ Os _ _ Hs) in C. rewrite E in C. apply (N s C).
      * apply in_or_app. right. rewrite (all_live_tables _ Od _ Hd). apply in_flat_map. eauto.
    + destruct Lt as (ds & Hd & Ht & ->). destruct Ls as (ss & Hs & Hs' & E). injection E as E1 E2. right. exists ds. split; [exact Hd|].
      unfold schema_changes. rewrite E1, (find_schema_called _ Os), (called_in _ _ _ (proj1 (orderly_tables _ Os)) Hs). apply in_or_app. right.
      rewrite (all_live_tables _ Od _ Hd). apply in_flat_map. exists t. split; [exact Ht|].
      unfold table_changes. rewrite (find_table_called _ Os _ _ Hs), E2, (called_in _ _ _ (proj1 (proj2 (orderly_tables _ Os) ss Hs)) Hs'). exact H.
Qed.

(** Every change is different from the others: its kind and what it is about. *)
Definition about (c : change) : nat * bytes * bytes * bytes :=
  match c with
  | ChDropSchema s => (0, sc_name s, [], [])
  | ChCreateSchema n => (1, n, [], [])
  | ChDropTable t => (2, tb_schema t, tb_name t, [])
  | ChCreateTable t => (3, tb_schema t, tb_name t, [])
  | ChAlterTable a => (4, al_schema a, al_table a, [])
  | ChDropFkey k => (5, con_schema k, con_table k, con_name k)
  | ChFastFkey k => (6, con_schema k, con_table k, con_name k)
  | ChAddFkey k => (7, con_schema k, con_table k, con_name k)
  | ChRecreateFkey k => (8, con_schema k, con_table k, con_name k)
  | ChWarn s t n => (9, s, t, n)
  end.
Definition about_schema (a : nat * bytes * bytes * bytes) : bytes := snd (fst (fst a)).
Definition about_table (a : nat * bytes * bytes * bytes) : bytes := snd (fst a).
Hypothesis AN : forall q s t, located src q s -> located dest q t -> NoDup (map about (alter s t)).
Hypothesis AT : forall q s t c, located src q s -> located dest q t -> In c (alter s t) -> (about_schema (about c), about_table (about c)) = q.

Lemma map_about : forall f n l q t (O : orderly l), located l q t ->
  (forall k, about (f k) = (n, con_schema k, con_table k, con_name k)) ->
  NoDup (map about (map f (live_fkeys t)))
  /\ forall c, In c (map f (live_fkeys t)) -> (about_schema (about c), about_table (about c)) = q /\ exists k, c = f k.
Proof.
  intros f n l q t O L E. rewrite (all_live_keys _ O _ _ L). split.
  - rewrite map_map. apply (NoDup_map_inv (fun a : nat * bytes * bytes * bytes => snd a)). rewrite map_map.
    rewrite (map_ext _ con_name) by (intro k; rewrite E; reflexivity). apply NoDup_filter_map. eapply orderly_constraints; eassumption.
  - intros c Hc. apply in_map_iff in Hc. destruct Hc as (k & <- & Hk). rewrite E. split; [|eauto]. apply filter_In in Hk. destruct Hk as (Hk & _).
    cbn. apply (con_facts _ O _ _ _ L Hk).
Qed.
Lemma changes_distinct : NoDup (map about (all_changes alter true src dest)).
Proof.
  unfold all_changes. cbn [keep]. rewrite (all_live _ Os), (all_live _ Od).
  destruct (orderly_tables _ Os) as (US & UT). destruct (orderly_tables _ Od) as (VS & VT).
  assert (D1 : forall s, In s src -> NoDup (map about (drop_schema_changes dest s))
     /\ forall c, In c (drop_schema_changes dest s) -> about_schema (about c) = sc_name s /\ ~ In (sc_name s) (map sc_name dest)).
  { intros s Hs. unfold drop_schema_changes. rewrite (find_schema_called _ Od), (schema_named _ Os _ Hs).
    destruct (called sc_name dest (sc_name s)) eqn:E; [split; [constructor|intros c []]|].
    rewrite (all_live_tables _ Os _ Hs). apply (proj1 (called_none_map _ _ _)) in E. split.
    - cbn [app map]. constructor.
      + intro Z. apply in_map_iff in Z. destruct Z as (c & E' & Z). apply in_flat_map in Z. destruct Z as (t & Ht & Z).
        apply in_map_iff in Z. destruct Z as (k & <- & _). discriminate.
      + apply (NoDup_flat_map_by tb_name _ about about_table); [apply UT; exact Hs| |].
        * intros t Ht. apply (map_about ChDropFkey 5 src (sc_name s, tb_name t) t Os); [apply located_in; assumption|reflexivity].
        * intros t c Ht Hc. apply (map_about ChDropFkey 5 src (sc_name s, tb_name t) t Os) in Hc; [|apply located_in; assumption|reflexivity].
          destruct Hc as (Hc & _). congruence.
    - intros c [<-|Hc]; [split; [reflexivity|exact E]|]. split; [|exact E]. apply in_flat_map in Hc. destruct Hc as (t & Ht & Hc).
      apply (map_about ChDropFkey 5 src (sc_name s, tb_name t) t Os) in Hc; [|apply located_in; assumption|reflexivity]. destruct Hc as (Hc & _). congruence. }
  assert (CC : forall ds t, In ds dest -> In t (sc_tables ds) -> NoDup (map about (create_changes t))
     /\ forall c, In c (create_changes t) -> (about_schema (about c), about_table (about c)) = (sc_name ds, tb_name t) /\ fst (fst (fst (about c))) <> 1).
  { intros ds t Hd Ht. destruct (map_about ChFastFkey 6 dest (sc_name ds, tb_name t) t Od) as (M1 & M2); [apply located_in; assumption|reflexivity|].
    unfold create_changes. split.
    - cbn [map]. constructor; [|exact M1]. intro Z. apply in_map_iff in Z. destruct Z as (c & E' & Z). apply in_map_iff in Z.
      destruct Z as (k & <- & _). discriminate.
    - intros c [<-|Hc].
      + cbn. rewrite (proj2 (VT ds Hd) t Ht). split; [reflexivity|discriminate].
      + destruct (M2 c Hc) as (M3 & k & ->). split; [exact M3|discriminate]. }
  assert (D2 : forall ds, In ds dest -> NoDup (map about (schema_changes alter true src ds))
     /\ forall c, In c (schema_changes alter true src ds) -> about_schema (about c) = sc_name ds).
  { intros ds Hd. unfold schema_changes. rewrite (find_schema_called _ Os), (schema_named _ Od _ Hd).
    destruct (called sc_name src (sc_name ds)) as [ss|] eqn:E.
    - apply called_some in E. destruct E as (Hs & E). cbn [keep]. rewrite (all_live_tables _ Os _ Hs), (all_live_tables _ Od _ Hd).
      assert (E1 : forall t, In t (sc_tables ss) -> NoDup (map about (drop_table_changes ds t))
        /\ forall c, In c (drop_table_changes ds t) -> (about_schema (about c), about_table (about c)) = (sc_name ss, tb_name t) /\ ~ In (tb_name t) (map tb_name (sc_tables ds))).
      { intros t Ht. destruct (map_about ChDropFkey 5 src (sc_name ss, tb_name t) t Os) as (M1 & M2); [apply located_in; assumption|reflexivity|].
        unfold drop_table_changes. rewrite (find_table_called _ Od _ _ Hd). destruct (called tb_name (sc_tables ds) (tb_name t)) eqn:C; [split; [constructor|intros c []]|].
        apply (proj1 (called_none_map _ _ _)) in C. split.
        - cbn [map]. constructor; [|exact M1]. intro Z. apply in_map_iff in Z. destruct Z as (c & E' & Z). apply in_map_iff in Z.
          destruct Z as (k & <- & _). discriminate.
        - intros c [<-|Hc]; (split; [|exact C]).
          + cbn. rewrite (proj2 (UT ss Hs) t Ht). reflexivity.
          + apply M2. exact Hc. }
      assert (E2 : forall t, In t (sc_tables ds) -> NoDup (map about (table_changes alter ss t))
        /\ forall c, In c (table_changes alter ss t) -> (about_schema (about c), about_table (about c)) = (sc_name ds, tb_name t)).
      { intros t Ht. unfold table_changes. rewrite (find_table_called _ Os _ _ Hs). destruct (called tb_name (sc_tables ss) (tb_name t)) as [s|] eqn:C.
        - apply (located_called _ Os _ _ Hs) in C. rewrite E in C. assert (L : located dest (sc_name ds, tb_name t) t) by (apply located_in; assumption).
          split; [eapply AN; eassumption|]. intros c Hc. eapply AT; eassumption.
        - split; [apply (CC ds t Hd Ht)|]. intros c Hc. apply (CC ds t Hd Ht). exact Hc. }
      split.
      + rewrite map_app. apply NoDup_join.
        * apply (NoDup_flat_map_by tb_name _ about about_table); [apply UT; exact Hs|intros t Ht; apply E1; exact Ht|].
          intros t c Ht Hc. destruct (proj2 (E1 t Ht) c Hc) as (Z & _). congruence.
        * apply (NoDup_flat_map_by tb_name _ about about_table); [apply VT; exact Hd|intros t Ht; apply E2; exact Ht|].
          intros t c Ht Hc. pose proof (proj2 (E2 t Ht) c Hc) as Z. congruence.
        * intros x H1 H2. apply in_map_iff in H1. destruct H1 as (c & <- & H1). apply in_map_iff in H2. destruct H2 as (c' & Ea & H2).
          apply in_flat_map in H1. destruct H1 as (t & Ht & H1). apply in_flat_map in H2. destruct H2 as (t' & Ht' & H2).
          destruct (proj2 (E1 t Ht) c H1) as (Z1 & Z2). pose proof (proj2 (E2 t' Ht') c' H2) as Z3. rewrite Ea in Z3. rewrite Z3 in Z1. injection Z1 as _ Z1.
          apply Z2. rewrite <- Z1. apply in_map. exact Ht'.
      + intros c Hc. apply in_app_or in Hc. destruct Hc as [Hc|Hc]; apply in_flat_map in Hc; destruct Hc as (t & Ht & Hc).
        * destruct (proj2 (E1 t Ht) c Hc) as (Z & _). congruence.
        * pose proof (proj2 (E2 t Ht) c Hc). congruence.
    - rewrite (all_live_tables _ Od _ Hd). split.
      + cbn [app map]. constructor.
        * intro Z. apply in_map_iff in Z. destruct Z as (c & E' & Z). apply in_flat_map in Z. destruct Z as (t & Ht & Z).
          destruct (proj2 (CC ds t Hd Ht) c Z) as (_ & Z'). rewrite E' in Z'. apply Z'. reflexivity.
        * apply (NoDup_flat_map_by tb_name _ about about_table); [apply VT; exact Hd|intros t Ht; apply (CC ds t Hd Ht)|].
          intros t c Ht Hc. destruct (proj2 (CC ds t Hd Ht) c Hc) as (Z & _). congruence.
      + intros c [<-|Hc]; [reflexivity|]. apply in_flat_map in Hc. destruct Hc as (t & Ht & Hc). destruct (proj2 (CC ds t Hd Ht) c Hc) as (Z & _). congruence. }
  rewrite map_app. apply NoDup_join.
  - apply (NoDup_flat_map_by sc_name _ about about_schema); [exact US|intros s Hs; apply D1; exact Hs|]. intros s c Hs Hc. apply (proj2 (D1 s Hs) c Hc).
  - apply (NoDup_flat_map_by sc_name _ about about_schema); [exact VS|intros s Hs; apply D2; exact Hs|]. intros s c Hs Hc. apply (proj2 (D2 s Hs) c Hc).
  - intros x H1 H2. apply in_map_iff in H1. destruct H1 as (c & <- & H1). apply in_map_iff in H2. destruct H2 as (c' & Ea & H2).
    apply in_flat_map in H1. destruct H1 as (s & Hs & H1). apply in_flat_map in H2. destruct H2 as (s' & Hs' & H2).
    destruct (proj2 (D1 s Hs) c H1) as (Z1 & Z2). pose proof (proj2 (D2 s' Hs') c' H2) as Z3. apply Z2. rewrite <- Z1, <- Ea, Z3. apply in_map. exact Hs'.
Qed.
End Changes.

(** ** The lists of the plan *)
Definition slot_of (c : constraint) : bytes * bytes * bytes := (con_schema c, con_table c, con_name c).
Definition site (t : table) : qname := (tb_schema t, tb_name t).
Section Lists.
Context (d : dialect) (DD : d = MySQL \/ d = Postgres) (cat : catalog) (src dest : list schema) (Os : orderly src) (Od : orderly dest).
Let Q : sql_dialect d = true.
Proof. destruct DD as [->| ->]; reflexivity. Qed.
Let alter := pure_alter d cat true.
Let all := all_changes alter true src dest.

Lemma alter_is : forall s t, exists a, alter s t = map ChDropFkey (filter is_fkey (only_cons s t)) ++ map ChAddFkey (filter is_fkey (only_cons t s)) ++ recorded a
  /\ a = the_alter d cat true s t /\ al_schema a = tb_schema t /\ al_table a = tb_name t.
Proof. intros s t. unfold alter. destruct DD as [->| ->]; (eexists; split; [reflexivity|]; repeat split). Qed.
Lemma alter_distinct : forall q s t, located src q s -> located dest q t -> NoDup (map about (alter s t)).
Proof.
  intros q s t Ls Lt. destruct (alter_is s t) as (a & -> & _ & _ & _). rewrite !map_app.
  assert (M : forall f n l l' x y, orderly l -> orderly l' -> located l q x -> located l' q y -> (forall k, about (f k) = (n, con_schema k, con_table k, con_name k)) ->
    NoDup (map about (map f (filter is_fkey (only_cons x y))))).
  { intros f n l l' x y O O' L L' E. rewrite map_map. apply (NoDup_map_inv (fun a : nat * bytes * bytes * bytes => snd a)). rewrite map_map.
    rewrite (map_ext _ con_name) by (intro k; rewrite E; reflexivity). apply NoDup_filter_map. apply gone_nodup. exact (orderly_constraints l O q x L). }
  assert (RR : NoDup (map about (recorded a))).
  { unfold recorded. destruct (_ && _); [constructor|]. cbn. constructor; [intros []|constructor]. }
  assert (RI : forall x, In x (map about (recorded a)) -> fst (fst (fst x)) = 4).
  { intros x Hx. apply in_map_iff in Hx. destruct Hx as (c & <- & Hc). apply recorded_in in Hc. subst c. reflexivity. }
  assert (MI : forall f n l x, (forall k, about (f k) = (n, con_schema k, con_table k, con_name k)) -> In x (map about (map f l)) -> fst (fst (fst x)) = n).
  { intros f n l x E Hx. apply in_map_iff in Hx. destruct Hx as (c & <- & Hc). apply in_map_iff in Hc. destruct Hc as (k & <- & _). rewrite E. reflexivity. }
  apply NoDup_join; [eapply (M ChDropFkey 5 src dest); eauto| |].
  - apply NoDup_join; [eapply (M ChAddFkey 7 dest src); eauto|exact RR|]. intros x H1 H2. apply (MI _ 7) in H1; [|reflexivity]. apply RI in H2. congruence.
  - intros x H1 H2. apply (MI _ 5) in H1; [|reflexivity]. apply in_app_or in H2. destruct H2 as [H2|H2]; [apply (MI _ 7) in H2; [|reflexivity]|apply RI in H2]; congruence.
Qed.
Lemma alter_about : forall q s t c, located src q s -> located dest q t -> In c (alter s t) -> (about_schema (about c), about_table (about c)) = q.
Proof.
  intros q s t c Ls Lt H. destruct (alter_is s t) as (a & E & _ & E1 & E2). rewrite E in H.
  apply in_app_or in H. destruct H as [H|H].
  { apply in_map_iff in H. destruct H as (k & <- & H). apply filter_In in H. destruct H as (H & _). apply (only_cons_in _ _ _ _ _ _ Os Od Ls Lt) in H.
    cbn. apply (con_facts _ Os _ _ _ Ls (proj1 H)). }
  apply in_app_or in H. destruct H as [H|H].
  { apply in_map_iff in H. destruct H as (k & <- & H). apply filter_In in H. destruct H as (H & _). apply (only_cons_in _ _ _ _ _ _ Od Os Lt Ls) in H.
    cbn. apply (con_facts _ Od _ _ _ Lt (proj1 H)). }
  apply recorded_in in H. subst c. cbn. rewrite E1, E2. symmetry. exact (orderly_at _ Od _ _ Lt).
Qed.
Lemma distinct : NoDup (map about all).
Proof. apply changes_distinct; [exact Os|exact Od|exact alter_distinct|exact alter_about]. Qed.
Lemma project_distinct : forall {C K} (g : change -> list C) (h : C -> K) (r : K -> nat * bytes * bytes * bytes),
  (forall c, g c = [] \/ exists x, g c = [x] /\ r (h x) = about c) -> NoDup (map h (flat_map g all)).
Proof.
  intros C K g h r G. apply (NoDup_proj about g h r); [exact distinct| |].
  - intro c. destruct (G c) as [->|(x & -> & _)]; [constructor|]. cbn. constructor; [intros []|constructor].
  - intros c x Hx. destruct (G c) as [E|(y & E & R)]; rewrite E in Hx; [contradiction|]. destruct Hx as [<-|[]]. exact R.
Qed.
Let changes := changes_are src dest Os Od alter.
Lemma in_alter : forall q s t c, located src q s -> located dest q t ->
  (In c (alter s t) <-> (exists k, In k (tb_constraints s) /\ foreign k /\ called con_name (tb_constraints t) (con_name k) = None /\ c = ChDropFkey k)
     \/ (exists k, In k (tb_constraints t) /\ foreign k /\ called con_name (tb_constraints s) (con_name k) = None /\ c = ChAddFkey k)
     \/ In c (recorded (the_alter d cat true s t))).
Proof.
  intros q s t c Ls Lt. destruct (alter_is s t) as (a & -> & -> & _). rewrite !in_app_iff, !in_map_iff. split.
  - intros [(k & <- & H)|[(k & <- & H)|H]]; [| |auto]; apply filter_In in H; destruct H as (H & F); apply is_fkey_spec in F.
    + apply (only_cons_in _ _ _ _ _ _ Os Od Ls Lt) in H. left. exists k. tauto.
    + apply (only_cons_in _ _ _ _ _ _ Od Os Lt Ls) in H. right. left. exists k. tauto.
  - intros [(k & H & F & N & ->)|[(k & H & F & N & ->)|H]]; [left|right; left|auto]; exists k; (split; [reflexivity|]); apply filter_In;
      (split; [|apply is_fkey_spec; exact F]); [apply (only_cons_in _ _ _ _ _ _ Os Od Ls Lt)|apply (only_cons_in _ _ _ _ _ _ Od Os Lt Ls)]; auto.
Qed.

(** Foreign keys of [a] that are not in [b]. *)
Definition left_out (a b : list schema) (k : constraint) : Prop :=
  exists q s, located a q s /\ In k (tb_constraints s) /\ foreign k
    /\ forall t, located b q t -> called con_name (tb_constraints t) (con_name k) = None.
Lemma somewhere : forall l q (O : orderly l), nowhere l q \/ exists t, located l q t.
Proof.
  intros l q O. destruct (called sc_name l (fst q)) as [s|] eqn:E.
  - apply called_some in E. destruct E as (Hs & E). destruct (called tb_name (sc_tables s) (snd q)) as [t|] eqn:C.
    + right. exists t. apply (located_called _ O _ _ Hs) in C. rewrite E in C. destruct q. exact C.
    + left. intros t L. destruct q as [a b]. cbn in *. subst a. apply (located_called _ O _ _ Hs) in L. congruence.
  - left. intros t (s & Hs & _ & ->). cbn in E. apply (proj1 (called_none _ _ _) E s Hs). reflexivity.
Qed.
Lemma in_project : forall {C} (g : change -> list C) x, In x (flat_map g all) <-> exists c, In c all /\ In x (g c).
Proof. intros C g x. apply in_flat_map. Qed.

Lemma dropped_keys_are : forall k, In k (flat_map ch_drop_key all) <-> left_out src dest k.
Proof.
  intro k. rewrite in_project. split.
  - intros (c & Hc & Hk). apply changes in Hc.
    destruct Hc as [(s & _ & _ & ->)|[(s & _ & _ & ->)|[(q & s & L & N & [(_ & ->)|(k' & H & F & ->)])|[(q & t & L & N & [->|(k' & H & F & ->)])|(q & s & t & Ls & Lt & H)]]]];
      try contradiction Hk.
    + destruct Hk as [<-|[]]. exists q, s. split; [exact L|]. split; [exact H|]. split; [exact F|]. intros t Lt. contradiction (N t Lt).
    + apply (in_alter _ _ _ _ Ls Lt) in H. destruct H as [(k' & H & F & N & ->)|[(k' & H & F & N & ->)|H]].
      * destruct Hk as [<-|[]]. exists q, s. split; [exact Ls|]. split; [exact H|]. split; [exact F|]. intros t' Lt'.
        rewrite (located_one _ _ _ _ (orderly_tables _ Od) Lt' Lt). exact N.
      * contradiction Hk.
      * apply recorded_in in H. subst c. contradiction Hk.
  - intros (q & s & L & H & F & N). exists (ChDropFkey k). split; [|left; reflexivity]. apply changes. right. right.
    destruct (somewhere dest q Od) as [Z|(t & Lt)].
    + left. exists q, s. split; [exact L|]. split; [exact Z|]. right. eauto.
    + right. right. exists q, s, t. split; [exact L|]. split; [exact Lt|]. apply (in_alter _ _ _ _ L Lt). left. exists k. auto.
Qed.
Lemma dropped_keys_once : NoDup (map slot_of (flat_map ch_drop_key all)).
Proof.
  rewrite (flat_map_in_ext ch_drop_key (fun c => match c with ChDropFkey k => [k] | _ => [] end)).
  - apply (project_distinct _ _ (fun k => (5, fst (fst k), snd (fst k), snd k))). intros [| | | | | | | | |]; auto. right. eexists. split; reflexivity.
  - intros c Hc. destruct c; try reflexivity. exfalso. apply changes in Hc.
    destruct Hc as [(s & _ & _ & Z)|[(s & _ & _ & Z)|[(q & s & L & N & [(_ & Z)|(k' & H & F & Z)])|[(q & t & L & N & [Z|(k' & H & F & Z)])|(q & s & t & Ls & Lt & H)]]]];
      try discriminate Z. apply (in_alter _ _ _ _ Ls Lt) in H. destruct H as [(k' & _ & _ & _ & Z)|[(k' & _ & _ & _ & Z)|H]]; try discriminate Z.
    apply recorded_in in H. discriminate H.
Qed.
Lemma not_recreated : flat_map ch_recreate_key all = [].
Proof.
  apply flat_map_in_nil. intros c Hc. destruct c; try reflexivity. exfalso. apply changes in Hc.
  destruct Hc as [(s & _ & _ & Z)|[(s & _ & _ & Z)|[(q & s & L & N & [(_ & Z)|(k' & H & F & Z)])|[(q & t & L & N & [Z|(k' & H & F & Z)])|(q & s & t & Ls & Lt & H)]]]];
    try discriminate Z. apply (in_alter _ _ _ _ Ls Lt) in H. destruct H as [(k' & _ & _ & _ & Z)|[(k' & _ & _ & _ & Z)|H]]; try discriminate Z.
  apply recorded_in in H. discriminate H.
Qed.
Lemma fast_keys_are : forall k, In k (flat_map ch_fast_key all) <-> exists q t, located dest q t /\ nowhere src q /\ In k (tb_constraints t) /\ foreign k.
Proof.
  intro k. rewrite in_project. split.
  - intros (c & Hc & Hk). apply changes in Hc.
    destruct Hc as [(s & _ & _ & ->)|[(s & _ & _ & ->)|[(q & s & L & N & [(_ & ->)|(k' & H & F & ->)])|[(q & t & L & N & [->|(k' & H & F & ->)])|(q & s & t & Ls & Lt & H)]]]];
      try contradiction Hk.
    + destruct Hk as [<-|[]]. eauto 7.
    + apply (in_alter _ _ _ _ Ls Lt) in H. destruct H as [(k' & H & F & N & ->)|[(k' & H & F & N & ->)|H]]; try contradiction Hk.
      apply recorded_in in H. subst c. contradiction Hk.
  - intros (q & t & L & N & H & F). exists (ChFastFkey k). split; [|left; reflexivity]. apply changes. right. right. right. left.
    exists q, t. split; [exact L|]. split; [exact N|]. right. eauto.
Qed.
Lemma add_keys_are : forall k, In k (flat_map ch_add_key all) <-> exists q s t, located src q s /\ located dest q t
  /\ In k (tb_constraints t) /\ foreign k /\ called con_name (tb_constraints s) (con_name k) = None.
Proof.
  intro k. rewrite in_project. split.
  - intros (c & Hc & Hk). apply changes in Hc.
    destruct Hc as [(s & _ & _ & ->)|[(s & _ & _ & ->)|[(q & s & L & N & [(_ & ->)|(k' & H & F & ->)])|[(q & t & L & N & [->|(k' & H & F & ->)])|(q & s & t & Ls & Lt & H)]]]];
      try contradiction Hk.
    apply (in_alter _ _ _ _ Ls Lt) in H. destruct H as [(k' & H & F & N & ->)|[(k' & H & F & N & ->)|H]]; try contradiction Hk.
    + destruct Hk as [<-|[]]. exists q, s, t. tauto.
    + apply recorded_in in H. subst c. contradiction Hk.
  - intros (q & s & t & Ls & Lt & H & F & N). exists (ChAddFkey k). split; [|left; reflexivity]. apply changes. right. right. right. right.
    exists q, s, t. split; [exact Ls|]. split; [exact Lt|]. apply (in_alter _ _ _ _ Ls Lt). right. left. exists k. auto.
Qed.
Lemma new_keys_are : forall k, In k (flat_map ch_fast_key all ++ flat_map ch_add_key all) <-> left_out dest src k.
Proof.
  intro k. rewrite in_app_iff, fast_keys_are, add_keys_are. split.
  - intros [(q & t & L & N & H & F)|(q & s & t & Ls & Lt & H & F & N)]; exists q, t.
    + split; [exact L|]. split; [exact H|]. split; [exact F|]. intros s Ls. contradiction (N s Ls).
    + split; [exact Lt|]. split; [exact H|]. split; [exact F|]. intros s' Ls'. rewrite (located_one _ _ _ _ (orderly_tables _ Os) Ls' Ls). exact N.
  - intros (q & t & L & H & F & N). destruct (somewhere src q Os) as [Z|(s & Ls)]; [left|right]; eauto 10.
Qed.
Lemma new_keys_once : NoDup (map slot_of (flat_map ch_fast_key all ++ flat_map ch_add_key all)).
Proof.
  rewrite map_app. apply NoDup_join.
  - apply (project_distinct _ _ (fun k => (6, fst (fst k), snd (fst k), snd k))). intros [| | | | | | | | |]; auto. right. eexists. split; reflexivity.
  - apply (project_distinct _ _ (fun k => (7, fst (fst k), snd (fst k), snd k))). intros [| | | | | | | | |]; auto. right. eexists. split; reflexivity.
  - intros x H1 H2. apply in_map_iff in H1. destruct H1 as (k & <- & H1). apply in_map_iff in H2. destruct H2 as (k' & E & H2).
    apply fast_keys_are in H1. destruct H1 as (q & t & L & N & H & F). apply add_keys_are in H2. destruct H2 as (q' & s' & t' & Ls & Lt & H' & _).
    destruct (con_facts _ Od _ _ _ L H) as (_ & _ & E1). destruct (con_facts _ Od _ _ _ Lt H') as (_ & _ & E2).
    apply (N s'). unfold slot_of in E. rewrite <- E1. replace (con_schema k, con_table k) with (con_schema k', con_table k') by congruence. rewrite E2. exact Ls.
Qed.
Lemma dropped_schemas_are : forall n, In n (map sc_name (flat_map ch_drop_schema all)) <-> In n (map sc_name src) /\ ~ In n (map sc_name dest).
Proof.
  intro n. rewrite in_map_iff. split.
  - intros (s & <- & H). apply in_project in H. destruct H as (c & Hc & Hk). apply changes in Hc.
    destruct Hc as [(s' & H & N & ->)|[(s' & _ & _ & ->)|[(q & s' & L & N & [(_ & ->)|(k' & H & F & ->)])|[(q & t & L & N & [->|(k' & H & F & ->)])|(q & s' & t & Ls & Lt & H)]]]];
      try contradiction Hk.
    + destruct Hk as [<-|[]]. split; [apply in_map; exact H|exact N].
    + apply (in_alter _ _ _ _ Ls Lt) in H. destruct H as [(k' & H & F & N & ->)|[(k' & H & F & N & ->)|H]]; try contradiction Hk.
      apply recorded_in in H. subst c. contradiction Hk.
  - intros (H & N). apply in_map_iff in H. destruct H as (s & <- & H). exists s. split; [reflexivity|]. apply in_project. exists (ChDropSchema s).
    split; [|left; reflexivity]. apply changes. left. eauto.
Qed.
Lemma dropped_schemas_once : NoDup (map sc_name (flat_map ch_drop_schema all)).
Proof. apply (project_distinct _ _ (fun n => (0, n, [], []))). intros [| | | | | | | | |]; auto. right. eexists. split; reflexivity. Qed.
Lemma created_schemas_are : forall n, In n (flat_map ch_create_schema all) <-> In n (map sc_name dest) /\ ~ In n (map sc_name src).
Proof.
  intro n. split.
  - intros H. apply in_project in H. destruct H as (c & Hc & Hk). apply changes in Hc.
    destruct Hc as [(s' & H & N & ->)|[(s' & H & N & ->)|[(q & s' & L & N & [(_ & ->)|(k' & H & F & ->)])|[(q & t & L & N & [->|(k' & H & F & ->)])|(q & s' & t & Ls & Lt & H)]]]];
      try contradiction Hk.
    + destruct Hk as [<-|[]]. split; [apply in_map; exact H|exact N].
    + apply (in_alter _ _ _ _ Ls Lt) in H. destruct H as [(k' & H & F & N & ->)|[(k' & H & F & N & ->)|H]]; try contradiction Hk.
      apply recorded_in in H. subst c. contradiction Hk.
  - intros (H & N). apply in_map_iff in H. destruct H as (s & <- & H). apply in_project. exists (ChCreateSchema (sc_name s)).
    split; [|left; reflexivity]. apply changes. right. left. eauto.
Qed.
Lemma created_schemas_once : NoDup (flat_map ch_create_schema all).
Proof.
  rewrite <- map_id. apply (project_distinct _ _ (fun n => (1, n, [], []))). intros [| | | | | | | | |]; auto. right. eexists. split; reflexivity.
Qed.
Lemma dropped_tables_are : forall s, In s (flat_map ch_drop_table all) <-> located src (site s) s /\ nowhere dest (site s) /\ In (tb_schema s) (map sc_name dest).
Proof.
  intro s. split.
  - intros H. apply in_project in H. destruct H as (c & Hc & Hk). apply changes in Hc.
    destruct Hc as [(s' & H & N & ->)|[(s' & H & N & ->)|[(q & s' & L & N & [(H & ->)|(k' & H & F & ->)])|[(q & t & L & N & [->|(k' & H & F & ->)])|(q & s' & t & Ls & Lt & H)]]]];
      try contradiction Hk.
    + destruct Hk as [<-|[]]. pose proof (orderly_at _ Os _ _ L) as E. fold (site s') in E. rewrite E in L, N, H. auto.
    + apply (in_alter _ _ _ _ Ls Lt) in H. destruct H as [(k' & H & F & N & ->)|[(k' & H & F & N & ->)|H]]; try contradiction Hk.
      apply recorded_in in H. subst c. contradiction Hk.
  - intros (H & N & I). apply in_project. exists (ChDropTable s). split; [|left; reflexivity]. apply changes. right. right. left.
    exists (site s), s. split; [exact H|]. split; [exact N|]. left. auto.
Qed.
Lemma dropped_tables_once : NoDup (map site (flat_map ch_drop_table all)).
Proof. apply (project_distinct _ _ (fun q => (2, fst q, snd q, []))). intros [| | | | | | | | |]; auto. right. eexists. split; reflexivity. Qed.
Lemma created_tables_are : forall t, In t (flat_map ch_create_table all) <-> located dest (site t) t /\ nowhere src (site t).
Proof.
  intro s. split.
  - intros H. apply in_project in H. destruct H as (c & Hc & Hk). apply changes in Hc.
    destruct Hc as [(s' & H & N & ->)|[(s' & H & N & ->)|[(q & s' & L & N & [(H & ->)|(k' & H & F & ->)])|[(q & t & L & N & [->|(k' & H & F & ->)])|(q & s' & t & Ls & Lt & H)]]]];
      try contradiction Hk.
    + destruct Hk as [<-|[]]. pose proof (orderly_at _ Od _ _ L) as E. fold (site t) in E. rewrite E in L, N. auto.
    + apply (in_alter _ _ _ _ Ls Lt) in H. destruct H as [(k' & H & F & N & ->)|[(k' & H & F & N & ->)|H]]; try contradiction Hk.
      apply recorded_in in H. subst c. contradiction Hk.
  - intros (H & N). apply in_project. exists (ChCreateTable s). split; [|left; reflexivity]. apply changes. right. right. right. left.
    exists (site s), s. split; [exact H|]. split; [exact N|]. left. auto.
Qed.
Lemma created_tables_once : NoDup (map site (flat_map ch_create_table all)).
Proof. apply (project_distinct _ _ (fun q => (3, fst q, snd q, []))). intros [| | | | | | | | |]; auto. right. eexists. split; reflexivity. Qed.

(** The tables of both catalogs. *)
Lemma old_tables_are : forall s t, In (s, t) (old_tables src dest) <-> located src (site t) s /\ located dest (site t) t.
Proof.
  intros s t. split.
  - intro H. apply old_tables_in in H. destruct H as (ss & ds & H1 & H2 & E & H3 & H4 & E' & _).
    assert (L : located dest (sc_name ds, tb_name t) t) by (exists ds; auto). pose proof (orderly_at _ Od _ _ L) as E0. fold (site t) in E0.
    rewrite <- E0. split; [|exact L]. exists ss. rewrite E, E'. auto.
  - intros ((ss & H1 & H3 & E1) & (ds & H2 & H4 & E2)). unfold old_tables. apply in_flat_map. exists ds. split; [exact H2|].
    rewrite (proj2 (proj1 (proj2 Od) ds H2)). rewrite <- (pick_the sc_name sc_ignore src _ (proj1 (orderly_tables _ Os))). fold (find_schema src).
    rewrite (find_schema_called _ Os). assert (E : sc_name ds = sc_name ss) by congruence. rewrite E, (called_in _ _ _ (proj1 (orderly_tables _ Os)) H1).
    apply in_flat_map. exists t. split; [exact H4|].
    rewrite (proj1 (proj2 (proj2 Od) (sc_name ds, tb_name t) t (located_in _ _ _ H2 H4))).
    destruct (proj2 (orderly_tables _ Os) ss H1) as (U & _). rewrite <- (pick_the tb_name tb_ignore (sc_tables ss) _ U). fold (find_table ss).
    rewrite (find_table_called _ Os _ _ H1). assert (E' : tb_name t = tb_name s) by congruence. rewrite E', (called_in _ _ _ U H3). left. reflexivity.
Qed.
Lemma old_tables_once : NoDup (map (fun p => site (snd p)) (old_tables src dest)).
Proof.
  destruct (orderly_tables _ Od) as (VS & VT).
  apply (NoDup_flat_map_by sc_name _ (fun p : table * table => site (snd p)) fst); [exact VS| |].
  - intros ds Hd. destruct (sc_ignore ds); [constructor|]. destruct (the sc_name sc_ignore src (sc_name ds)) as [ss|]; [|constructor].
    apply (NoDup_flat_map_by tb_name _ (fun p : table * table => site (snd p)) snd); [apply VT; exact Hd| |].
    + intros t _. destruct (tb_ignore t); [constructor|]. destruct (the tb_name tb_ignore (sc_tables ss) (tb_name t)); [|constructor]. cbn. constructor; [intros []|constructor].
    + intros t [a b] _ H. destruct (tb_ignore t); [contradiction|]. destruct (the tb_name tb_ignore (sc_tables ss) (tb_name t)); [|contradiction].
      destruct H as [H|[]]. injection H as _ <-. reflexivity.
  - intros ds [a b] Hd H. destruct (sc_ignore ds); [contradiction|]. destruct (the sc_name sc_ignore src (sc_name ds)) as [ss|]; [|contradiction].
    apply in_flat_map in H. destruct H as (t & Ht & H). destruct (tb_ignore t); [contradiction|]. destruct (the tb_name tb_ignore (sc_tables ss) (tb_name t)); [|contradiction].
    destruct H as [H|[]]. injection H as _ <-. cbn. apply (VT ds Hd). exact Ht.
Qed.
End Lists.

(** ** The statements *)
Definition drop_key (cur : bytes) (c : constraint) : stmt := QDropConstraint (at_owner cur c) c.
(** Keys that are added together, and whether they are validated afterwards. *)
Definition key_block (cur : bytes) (b : list constraint * bool) : list stmt :=
  map (fun c => QAddConstraint (at_owner cur c) c (snd b)) (fst b)
  ++ if snd b then map (fun c => QValidate (at_owner cur c) (con_name c)) (fst b) else [].
Lemma map_in_ext : forall {A C} (f g : A -> C) l, (forall a, In a l -> f a = g a) -> map f l = map g l.
Proof. intros A C f g l H. apply map_ext_in. exact H. Qed.
Lemma one_place : forall cat cur g l k, one_owner cat -> groups_same g -> (forall k, In k (keys g) -> key_of cat k) ->
  In l (gr_list g) -> In k l -> group_at cur l = at_owner cur k.
Proof.
  intros cat cur g l k O S KO Hl Hk. destruct l as [|k0 l]; [contradiction|]. unfold group_at, at_owner. cbn [first_key hd].
  destruct (KO k0) as (s1 & t1 & A1 & A2 & A3 & A4); [eapply keys_in_group; [exact Hl|left; reflexivity]|].
  destruct (KO k) as (s2 & t2 & B1 & B2 & B3 & B4); [eapply keys_in_group; [exact Hl|exact Hk]|].
  assert (SP : same_pair k0 k) by (apply tables_id_pair; apply (proj1 S (k0 :: l)); [exact Hl|left; reflexivity|exact Hk]).
  destruct (O s1 t1 k0 s2 t2 k A1 A2 A3 B1 B2 B3 A4 B4 SP) as (-> & ->). reflexivity.
Qed.
Lemma left_out_key : forall a b k, left_out a b k -> key_of a k.
Proof. intros a b k (q & s & (sc & Hs & Ht & _) & Hk & F & _). exists sc, s. auto. Qed.

Theorem statements_are : forall d flt prefix src dest files ws, d = MySQL \/ d = Postgres ->
  orderly (ct_schemas src) -> orderly (ct_schemas dest) ->
  readable_types d (ct_schemas src) -> readable_types d (ct_schemas dest) ->
  (d = Postgres -> one_owner (ct_schemas src) /\ one_owner (ct_schemas dest)) ->
  results d flt prefix src dest true = Ok (files, ws) ->
  let cur := ct_current src in
  exists kd sd sc td tc alts blocks,
    forward files = map (drop_key cur) kd ++ map QDropSchema sd ++ map QCreateSchema sc
      ++ map (fun t => QDropTable (at_table cur t)) td ++ flat_map (create_with_indexes cur) tc ++ alts ++ flat_map (key_block cur) blocks
    /\ (NoDup (map slot_of kd) /\ forall k, In k kd <-> left_out (ct_schemas src) (ct_schemas dest) k)
    /\ (NoDup sd /\ forall n, In n sd <-> In n (map sc_name (ct_schemas src)) /\ ~ In n (map sc_name (ct_schemas dest)))
    /\ (NoDup sc /\ forall n, In n sc <-> In n (map sc_name (ct_schemas dest)) /\ ~ In n (map sc_name (ct_schemas src)))
    /\ (NoDup (map site td) /\ forall s, In s td <-> located (ct_schemas src) (site s) s /\ nowhere (ct_schemas dest) (site s) /\ In (tb_schema s) (map sc_name (ct_schemas dest)))
    /\ (NoDup (map site tc) /\ forall t, In t tc <-> located (ct_schemas dest) (site t) t /\ nowhere (ct_schemas src) (site t))
    /\ flatr (alter_code d flt src) (flat_map (fun p => flat_map ch_alter (recorded (the_alter d src true (fst p) (snd p)))) (old_tables (ct_schemas src) (ct_schemas dest))) = Ok alts
    /\ (NoDup (map slot_of (flat_map fst blocks)) /\ forall k, In k (flat_map fst blocks) <-> left_out (ct_schemas dest) (ct_schemas src) k).
Proof.
  intros d flt prefix src dest files ws DD Os Od Rs Rd OW H cur.
  assert (Q : sql_dialect d = true) by (destruct DD as [->| ->]; reflexivity).
  destruct (segments _ _ _ _ _ _ _ _ Q H) as (l & p & alts & C & R & A & G). rewrite G. clear G H.
  pose proof (orderly_tables _ Os) as Us. pose proof (orderly_tables _ Od) as Ud.
  rewrite (pure_changes d src dest true Q Us Ud Rs Rd) in C. injection C as <-.
  destruct (record_lists _ _ _ _ R) as (L1 & L2 & L3 & L4 & L5 & _). cbn - [all_changes] in L1, L2, L3, L4, L5.
  destruct (record_keys _ _ _ _ empty_plan_ok R) as (PO & K1 & K2 & K3). cbn - [all_changes] in K1, K2, K3.
  specialize (K3 (not_recreated d DD src _ _ Os Od)).
  assert (KD : forall k, In k (keys (pl_drop_fkeys p)) <-> left_out (ct_schemas src) (ct_schemas dest) k).
  { intro k. rewrite <- (dropped_keys_are d DD src _ _ Os Od k). split; apply Permutation_in; [exact K1|symmetry; exact K1]. }
  assert (KN : Permutation ((match d with MySQL => [] | _ => keys (pl_fast_fkeys p) end) ++ keys (pl_add_fkeys p))
     (flat_map ch_fast_key (all_changes (pure_alter d src true) true (ct_schemas src) (ct_schemas dest))
      ++ flat_map ch_add_key (all_changes (pure_alter d src true) true (ct_schemas src) (ct_schemas dest)))).
  { destruct DD as [->| ->].
    - cbn [app]. rewrite K3. apply flat_map_split.
    - apply Permutation_app; [exact K2|exact K3]. }
  set (blocks := match d with MySQL => [] | _ => map (fun l => (l, false)) (gr_list (pl_fast_fkeys p)) end
                 ++ map (fun l => (l, match d with Postgres => true | _ => false end)) (gr_list (pl_add_fkeys p))).
  assert (BF : flat_map fst blocks = (match d with MySQL => [] | _ => keys (pl_fast_fkeys p) end) ++ keys (pl_add_fkeys p)).
  { unfold blocks, keys. rewrite flat_map_app. rewrite !flat_map_concat_map. destruct DD as [->| ->]; rewrite !map_map; cbn [fst]; rewrite ?map_id; reflexivity. }
  assert (BL : forall k, In k (flat_map fst blocks) <-> left_out (ct_schemas dest) (ct_schemas src) k).
  { intro k. rewrite BF. rewrite <- (new_keys_are d DD src _ _ Os Od k). split; apply Permutation_in; [exact KN|symmetry; exact KN]. }
  exists (keys (pl_drop_fkeys p)), (map sc_name (pl_drop_schemas p)), (pl_create_schemas p), (pl_drop_tables p), (pl_create_tables p), alts, blocks.
  assert (SAME : d = Postgres -> groups_same (pl_drop_fkeys p) /\ groups_same (pl_fast_fkeys p) /\ groups_same (pl_add_fkeys p)).
  { intros E. assert (R' := R). rewrite E in R'. refine (record_same _ empty_plan p _ _ R'); [|split; [|split]; exact no_groups_same].
    intros k Hk. pose proof (not_recreated d DD src _ _ Os Od) as Z. rewrite E in Z.
    assert (In k (flat_map ch_recreate_key (all_changes (pure_alter Postgres src true) true (ct_schemas src) (ct_schemas dest)))).
    { apply in_flat_map. exists (ChRecreateFkey k). split; [exact Hk|left; reflexivity]. }
    rewrite Z in H. contradiction. }
  split; [|split; [|split; [|split; [|split; [|split; [|split]]]]]].
  - assert (E1 : drops_part d (ct_current src) p = map (drop_key cur) (keys (pl_drop_fkeys p))).
    { unfold drops_part, keys. rewrite map_concat. apply flat_map_in_ext. intros g Hg. unfold drop_key_stmts.
      destruct DD as [E|E].
      - rewrite E. reflexivity.
      - destruct (SAME E) as (S1 & _ & _). destruct (OW E) as (O1 & _). rewrite E. apply map_in_ext. intros k Hk. unfold drop_key. f_equal.
        apply (one_place _ _ _ _ _ O1 S1); [|exact Hg|exact Hk]. intros k' Hk'. eapply left_out_key. apply KD. exact Hk'. }
    assert (E2 : schema_stmts d (ct_current src) p = map QDropSchema (map sc_name (pl_drop_schemas p)) ++ map QCreateSchema (pl_create_schemas p)).
    { rewrite map_map. destruct DD as [->| ->]; reflexivity. }
    assert (E3 : adds_part d (ct_current src) p = flat_map (key_block cur) blocks).
    { unfold adds_part, blocks. rewrite flat_map_app. destruct DD as [E|E].
      - rewrite E. f_equal.
        + apply flat_map_nil.
        + rewrite flat_map_map. apply flat_map_in_ext. intros g Hg. unfold key_block. cbn. rewrite app_nil_r. reflexivity.
      - destruct (SAME E) as (_ & S2 & S3). destruct (OW E) as (_ & O2). rewrite E in *. rewrite !flat_map_map. f_equal; apply flat_map_in_ext; intros g Hg; unfold key_block; cbn.
        + rewrite app_nil_r. apply map_in_ext. intros k Hk. f_equal. apply (one_place _ _ _ _ _ O2 S2); [|exact Hg|exact Hk]. intros k' Hk'.
          eapply left_out_key. apply BL. rewrite BF. apply in_or_app. left. exact Hk'.
        + assert (GA : forall k, In k g -> group_at (ct_current src) g = at_owner cur k).
          { intros k Hk. apply (one_place _ _ _ _ _ O2 S3); [|exact Hg|exact Hk]. intros k' Hk'.
            eapply left_out_key. apply BL. rewrite BF. apply in_or_app. right. exact Hk'. }
          f_equal; apply map_in_ext; intros k Hk; f_equal; apply GA; exact Hk. }
    rewrite E1, E2, E3. unfold table_stmts. rewrite <- !app_assoc. reflexivity.
  - split; [|exact KD]. eapply NoDup_permuted; [exact K1|]. exact (dropped_keys_once d DD src _ _ Os Od).
  - rewrite L1. split; [exact (dropped_schemas_once d DD src _ _ Os Od)|]. exact (dropped_schemas_are d DD src _ _ Os Od).
  - rewrite L2. split; [exact (created_schemas_once d DD src _ _ Os Od)|]. exact (created_schemas_are d DD src _ _ Os Od).
  - rewrite L3. split; [exact (dropped_tables_once d DD src _ _ Os Od)|]. exact (dropped_tables_are d DD src _ _ Os Od).
  - rewrite L4. split; [exact (created_tables_once d DD src _ _ Os Od)|]. exact (created_tables_are d DD src _ _ Os Od).
  - rewrite L5, (alters_origin _ _ _ _ _ Q Us Ud) in A. rewrite <- A. f_equal. apply flat_map_ext. intros [a b]. reflexivity.
  - split; [|exact BL]. rewrite BF. eapply NoDup_permuted; [exact KN|]. exact (new_keys_once d DD src _ _ Os Od).
Qed.
