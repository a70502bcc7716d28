(** Constraints that are dropped come back, C36. *)
From Coq Require Import Lia Permutation.
From Verif Require Import GoStr GoStrFacts ModelCatalog ModelCache CacheFacts ModelDdl ModelDiff ModelDiffSql SpecDiff DiffLookup DiffFacts DiffSelf DiffSqlite DiffPlan DiffSegments DiffDrops.

Lemma schema_stmts_in : forall d cur p s, In s (schema_stmts d cur p) ->
  (exists t, s = QDropTable t) \/ (exists n, s = QDropSchema n) \/ (exists n, s = QCreateSchema n /\ In n (pl_create_schemas p)).
Proof.
  intros d cur p s Z. unfold schema_stmts in Z. apply in_app_or in Z. destruct Z as [Z|Z].
  - destruct d; try (apply in_map_iff in Z; destruct Z as (? & <- & _); eauto; fail).
    apply in_flat_map in Z. destruct Z as (t & _ & Z). unfold drop_schema_stmts in Z. apply in_app_or in Z. destruct Z as [Z|[<-|[]]].
    + apply in_map_iff in Z. destruct Z as (? & <- & _). eauto.
    + eauto.
  - apply in_map_iff in Z. destruct Z as (n & <- & Hn). eauto 6.
Qed.
Lemma table_stmts_in : forall cur p s, In s (table_stmts cur p) ->
  (exists t, s = QDropTable t) \/ (exists t, In t (pl_create_tables p) /\ s = QCreateTable (at_table cur t) t)
  \/ exists q x b, s = QCreateIndex q x b.
Proof.
  intros cur p s Z. unfold table_stmts in Z. apply in_app_or in Z. destruct Z as [Z|Z].
  - apply in_map_iff in Z. destruct Z as (? & <- & _). eauto.
  - apply create_with_indexes_in in Z. destruct Z; eauto.
Qed.

(** A dropped constraint is a foreign key of the first files or belongs to an altered table. *)
Lemma constraint_position : forall d flt src p alts pre t c post, sql_dialect d = true ->
  flatr (alter_code d flt src) (pl_alters p) = Ok alts ->
  pre ++ QDropConstraint t c :: post
    = drops_part d (ct_current src) p ++ schema_stmts d (ct_current src) p ++ table_stmts (ct_current src) p
      ++ alts ++ adds_part d (ct_current src) p ->
  (In (QDropConstraint t c) (drops_part d (ct_current src) p) /\ incl (adds_part d (ct_current src) p) post)
  \/ exists a, In a (pl_alters p) /\ t = alter_at src a /\ In c (al_drop_constraints a)
     /\ forall c' u, In c' (al_add_constraints a) -> In u (adds_keys d src a c') -> In u post.
Proof.
  intros d flt src p alts pre t c post Q A F.
  destruct (split_app _ _ _ _ _ F) as [(m & E & ->)|(m & _ & E)]; clear F.
  { left. rewrite E. split; [apply in_elt|]. intros u Hu. do 4 (apply in_or_app; right). exact Hu. }
  right. symmetry in E. destruct (split_app _ _ _ _ _ E) as [(m' & F & _)|(m' & _ & F)]; clear E.
  { exfalso. assert (Z : In (QDropConstraint t c) (schema_stmts d (ct_current src) p)) by (rewrite F; apply in_elt).
    apply schema_stmts_in in Z. destruct Z as [(? & Z)|[(? & Z)|(? & Z & _)]]; discriminate. }
  symmetry in F. destruct (split_app _ _ _ _ _ F) as [(m'' & E & _)|(m'' & _ & E)]; clear F.
  { exfalso. assert (Z : In (QDropConstraint t c) (table_stmts (ct_current src) p)) by (rewrite E; apply in_elt).
    apply table_stmts_in in Z. destruct Z as [(? & Z)|[(? & _ & Z)|(? & ? & ? & Z)]]; discriminate. }
  symmetry in E. apply in_split_app in E.
  2: { intro Z. apply adds_part_in in Z. destruct Z as [(? & ? & ? & Z)|(? & ? & Z)]; discriminate. }
  destruct E as (k & E & ->). destruct (flatr_split _ _ _ A _ _ _ E) as (a & x & u & v & w & Ha & X & -> & ->).
  destruct (after_drop _ _ _ _ _ _ _ _ Q X eq_refl eq_refl) as (I1 & _ & I2).
  exists a. split; [exact Ha|]. unfold alter_first in I1. apply in_app_or in I1. destruct I1 as [I1|I1].
  2: { apply in_map_iff in I1. destruct I1 as (? & Z & _). discriminate. }
  assert (Y : t = alter_at src a /\ In c (al_drop_constraints a)).
  { destruct d; try discriminate Q; apply in_app_or in I1; destruct I1 as [I1|I1]; apply in_map_iff in I1;
      destruct I1 as (y & Z & Hy); try discriminate Z; injection Z as <- <-; auto. }
  destruct Y as (-> & Hc). split; [reflexivity|]. split; [exact Hc|].
  intros c' u' Hc' Hu. apply in_or_app. left. apply in_or_app. left. apply (I2 c' u'); assumption.
Qed.

(** Where a change comes from. *)
Lemma find_table_in : forall ss n s, find_table ss n = Some s -> In s (sc_tables ss) /\ tb_name s = n /\ tb_ignore s = false.
Proof. intros ss n s H. exact (pick_some _ _ _ _ _ H). Qed.
Lemma find_schema_in : forall l n s, find_schema l n = Some s -> In s l /\ sc_name s = n /\ sc_ignore s = false.
Proof. intros l n s H. exact (pick_some _ _ _ _ _ H). Qed.
Lemma live_in : forall ds d, In d (live_tables ds) -> In d (sc_tables ds) /\ tb_ignore d = false.
Proof. intros ds d H. apply filter_In in H. destruct H as (H & I0). apply negb_true_iff in I0. auto. Qed.
Lemma live_schemas_in : forall l s, In s (live_schemas l) -> In s l /\ sc_ignore s = false.
Proof. intros l s H. apply filter_In in H. destruct H as (H & I0). apply negb_true_iff in I0. auto. Qed.

Definition made_change (c : change) : Prop :=
  match c with ChCreateSchema _ | ChCreateTable _ | ChFastFkey _ => True | _ => False end.
Lemma create_changes_made : forall t c, In c (create_changes t) -> made_change c.
Proof.
  intros t c [<-|H]; [exact I|]. apply in_map_iff in H. destruct H as (k & <- & _). exact I.
Qed.
Lemma change_origin : forall alter src dest c, In c (all_changes alter false src dest) ->
  made_change c \/ exists s d, counterparts src dest s d /\ In c (alter s d).
Proof.
  intros alter src dest c H. unfold all_changes in H. cbn [keep app] in H. apply in_flat_map in H.
  destruct H as (ds & Hds & H). apply live_schemas_in in Hds. destruct Hds as (Hds & Ids).
  unfold schema_changes in H. destruct (find_schema src (sc_name ds)) as [ss|] eqn:S.
  - cbn [keep app] in H. apply in_flat_map in H. destruct H as (d & Hd & H). apply live_in in Hd. destruct Hd as (Hd & Id).
    unfold table_changes in H. apply find_schema_in in S. destruct S as (Hss & Nss & _).
    destruct (find_table ss (tb_name d)) as [s|] eqn:T.
    + apply find_table_in in T. destruct T as (Hs & Ns & _). right. exists s, d. split; [|exact H].
      exists ss, ds. auto 8.
    + left. eapply create_changes_made. exact H.
  - left. apply in_app_or in H. destruct H as [H|H].
    + destruct (is_empty (sc_name ds)); [contradiction|]. destruct H as [<-|[]]. exact I.
    + apply in_flat_map in H. destruct H as (t & _ & H). eapply create_changes_made. exact H.
Qed.

Lemma find_con_in : forall t n c, find_con t n = Some c -> In c (tb_constraints t) /\ con_name c = n /\ con_ignore c = false /\ n <> [].
Proof.
  intros t n c H. unfold find_con, pick_con in H. destruct (some_name n) eqn:S; [|discriminate].
  apply pick_some in H. destruct H as (A & B & C). split; [exact A|]. split; [exact B|]. split; [exact C|].
  intros ->. discriminate S.
Qed.
Lemma is_pkey_type : forall c, is_pkey c = true <-> con_type c = PRIMARY_KEY.
Proof. intro c. apply beqb_eq. Qed.
Lemma is_fkey_type : forall c, is_fkey c = true <-> con_type c = FOREIGN_KEY.
Proof. intro c. apply beqb_eq. Qed.
Lemma pkey_is_key : forall c, is_pkey c = true -> is_key c = true.
Proof. intros c H. unfold is_key. fold (is_pkey c). rewrite H. reflexivity. Qed.

Lemma dependents_in : forall {A} (columns : A -> list bytes) l n a, In a (dependents columns l n) -> In a l.
Proof.
  intros A columns l n a H. apply in_flat_map in H. destruct H as (b & Hb & H). apply repeat_spec in H. subst b. exact Hb.
Qed.
Lemma indexed_in : forall {A} (l : list A) i a, In (i, a) (indexed l) -> In a l.
Proof. intros A l i a H. apply in_combine_r in H. exact H. Qed.
Lemma dep_cons_in : forall drop coll s d c, In c (dep_cons drop coll s d) -> In c (tb_constraints s).
Proof.
  intros drop coll s d c H. unfold dep_cons in H. apply in_map_iff in H. destruct H as ((i & c') & <- & H).
  apply in_flat_map in H. destruct H as (p & _ & H). apply filter_In in H. destruct H as (H & _).
  apply dependents_in in H. apply filter_In in H. destruct H as (H & _). apply indexed_in in H. exact H.
Qed.

Lemma last_named_nth : forall (l : list constraint) i, live_pos con_ignore l (pkpos l) = Some i ->
  exists a, nth_error l i = Some a /\ In a l /\ con_type a = PRIMARY_KEY /\ con_ignore a = false.
Proof.
  intros l i H. unfold live_pos, pkpos in H. pose proof (last_pos_named con_type l PRIMARY_KEY) as P.
  destruct (last_pos con_type l PRIMARY_KEY) as [j|]; [|discriminate]. destruct P as (P & _).
  destruct (nth_error l j) as [a|] eqn:E; [|discriminate]. destruct (con_ignore a) eqn:Ia; [discriminate|].
  injection H as <-. exists a. split; [exact E|]. symmetry in P. apply last_named_in in P. destruct P as (P1 & P2). auto.
Qed.

Lemma alter_comes_back : forall d src dest cat s t a c, sql_dialect d = true ->
  same_kinds src dest -> single_primary_keys src -> counterparts src dest s t ->
  In (ChAlterTable a) (pure_alter d cat false s t) -> In c (al_drop_constraints a) ->
  exists c', In c' (al_add_constraints a) /\ con_type c' = con_type c /\ (con_type c = FOREIGN_KEY -> c' = c).
Proof.
  intros d src dest cat s t a c Q SK SP CP H Hc.
  assert (PF : forall x y : constraint, con_type x = PRIMARY_KEY -> con_type x = FOREIGN_KEY -> y = x).
  { intros x y X Y. rewrite X in Y. discriminate. }
  destruct d; try discriminate Q; cbn [pure_alter] in H.
  - unfold postgres_changes in H. cbn [keep filter map app] in H. apply in_app_or in H. destruct H as [H|H].
    { apply in_map_iff in H. destruct H as (? & Z & _). discriminate. }
    apply recorded_in in H. injection H as ->. cbn [the_alter_postgres al_drop_constraints al_add_constraints] in *.
    cbn [keep filter app] in Hc. unfold opt_list in Hc. destruct (old_pkey false s t) as [k|] eqn:K; [|contradiction].
    destruct Hc as [<-|[]]. unfold old_pkey in K. destruct (existsb is_pkey (only_cons t s)) eqn:X; [|discriminate].
    cbn [negb andb] in K. apply pick_some in K. destruct K as (Hk & Tk & Ik). apply existsb_exists in X. destruct X as (b & Hb & Pb).
    exists b. split; [apply filter_In; split; [exact Hb|apply pkey_is_key; exact Pb]|]. apply is_pkey_type in Pb.
    split; [congruence|]. apply PF. exact Tk.
  - unfold mysql_changes in H. cbn [keep filter map app] in H. apply in_app_or in H. destruct H as [H|H].
    { apply in_map_iff in H. destruct H as (? & Z & _). discriminate. }
    apply recorded_in in H. injection H as ->. cbn [the_alter_mysql al_drop_constraints al_add_constraints] in *.
    cbn [keep filter app] in Hc. apply in_map_iff in Hc. destruct Hc as ((k & b) & Z & Hc). cbn in Z. subst k.
    apply filter_In in Hc. destruct Hc as (Hc & R). apply both_in in Hc. destruct Hc as (Hb & Ib & Fb).
    exists b. split.
    { unfold added_mysql. apply in_flat_map. exists b. split; [exact Hb|]. rewrite Ib, Fb, R. cbn. auto. }
    apply find_con_in in Fb. destruct Fb as (Hk & Nk & Ik & _).
    assert (E : con_type c = con_type b) by (eapply SK; eassumption).
    split; [auto|]. apply PF. rewrite E. apply is_pkey_type. unfold rekeyed in R. apply andb_true_iff in R. apply R.
  - unfold sqlserver_changes in H. apply in_app_or in H. destruct H as [H|H].
    { apply in_map_iff in H. destruct H as (? & Z & _). discriminate. }
    cbn [keep filter map app] in H. apply in_app_or in H. destruct H as [H|H].
    { apply in_map_iff in H. destruct H as (? & Z & _). discriminate. }
    apply in_app_or in H. destruct H as [H|H].
    { apply in_map_iff in H. destruct H as (? & Z & _). discriminate. }
    apply recorded_in in H. injection H as ->. cbn [the_alter_sqlserver al_drop_constraints al_add_constraints] in *.
    cbn [keep filter app] in Hc. apply in_app_or in Hc. destruct Hc as [Hc|Hc].
    + apply in_map_iff in Hc. destruct Hc as ((i & k) & Z & Hc). cbn in Z. subst k. unfold replaced in Hc.
      destruct (live_pos con_ignore (tb_constraints s) _) as [i'|] eqn:L1; [|contradiction].
      destruct (live_pos con_ignore (tb_constraints t) _) as [j|] eqn:L2; [|contradiction].
      apply last_named_nth in L1. destruct L1 as (a1 & N1 & H1 & T1 & I1).
      apply last_named_nth in L2. destruct L2 as (b1 & N2 & H2 & T2 & I2). rewrite N1, N2 in Hc. cbn [negb andb] in Hc.
      destruct (beqb_spec (con_name a1) (con_name b1)) as [E|E]; cbn in Hc; [contradiction|].
      destruct Hc as [Hc|[]]. injection Hc as -> ->. exists b1. split.
      * apply in_or_app. left. apply filter_In. split; [|apply pkey_is_key, is_pkey_type; exact T2].
        apply gone_in. split; [exact H2|]. split; [exact I2|]. destruct (find_con s (con_name b1)) as [x|] eqn:X; [|reflexivity].
        exfalso. apply find_con_in in X. destruct X as (Hx & Nx & _). apply E.
        assert (Tx : con_type x = con_type b1) by (eapply SK; eassumption). rewrite <- Nx.
        destruct CP as (ss & ds & Hss & _ & _ & Hs & _). symmetry. eapply SP; try eassumption. congruence.
      * split; [congruence|]. apply PF. exact T1.
    + exists c. split; [apply in_or_app; right; exact Hc|]. auto.
Qed.

(** Recreated keys. *)
Lemma tables_id_pair : forall a b, tables_id a = tables_id b -> same_pair a b.
Proof.
  intros a b H. unfold tables_id in H. unfold same_pair.
  destruct (_ || _) in H; destruct (_ || _) in H; injection H as -> -> -> ->; auto.
Qed.
Definition ch_new_key (c : change) : list constraint := match c with ChAddFkey k => [k] | _ => [] end.
Lemma record_recreated : forall d l p p', d <> MySQL -> plan_ok p -> record_all d p l = Ok p' ->
  (forall k, In (ChRecreateFkey k) l -> gr_pos (pl_add_fkeys p) (tables_id k) = None) ->
  (forall k c, In (ChRecreateFkey k) l -> In (ChAddFkey c) l -> tables_id c <> tables_id k) ->
  incl (keys (pl_add_fkeys p) ++ flat_map ch_recreate_key l) (keys (pl_add_fkeys p')).
Proof.
  intros d l p p' NM. revert p p'. induction l as [|c l IH]; intros p p' G H N1 N2.
  - cbn in H. injection H as <-. cbn. rewrite app_nil_r. apply incl_refl.
  - cbn [record_all] in H. apply bindr_inv in H. destruct H as (q & Hq & H).
    destruct (record_one_key _ _ _ _ G Hq) as (G' & _).
    assert (S : (forall k, In (ChRecreateFkey k) l -> gr_pos (pl_add_fkeys q) (tables_id k) = None)
                /\ incl (keys (pl_add_fkeys p) ++ ch_recreate_key c) (keys (pl_add_fkeys q))).
    { assert (N3 : forall k, In (ChRecreateFkey k) l -> gr_pos (pl_add_fkeys p) (tables_id k) = None).
      { intros k Hk. apply N1. right. exact Hk. }
      destruct G as (_ & _ & G). destruct p as [dk dss css dts cts als fk ak ws]. unfold record_change in Hq. cbn [pl_add_fkeys] in *.
      destruct c as [s|n|t|t|a|k|k|k|k|s t n]; cbn [ch_recreate_key]; rewrite ?app_nil_r.
      1-6: injection Hq as <-; split; [exact N3|apply incl_refl].
      - assert (E : pl_add_fkeys q = ak) by (destruct d; try congruence; injection Hq as <-; reflexivity).
        rewrite E. split; [exact N3|apply incl_refl].
      - injection Hq as <-. cbn [pl_add_fkeys].
        assert (E : (match d with MySQL => alone | _ => add_key end) ak k = add_key ak k) by (destruct d; congruence).
        rewrite E. destruct (add_key_ok ak k G) as (_ & P). split.
        + intros k' Hk'. assert (X : tables_id k <> tables_id k') by (apply N2; cbn; auto).
          unfold add_key. destruct (gr_pos ak (tables_id k)); [exact (N3 k' Hk')|]. cbn [gr_pos]. unfold upd.
          destruct (keqb (tables_id k) (tables_id k')) eqn:KE; [|exact (N3 k' Hk')].
          exfalso. apply X. apply cache_key_eq. exact KE.
        + intros x Hx. eapply Permutation_in; [symmetry; exact P|]. apply in_or_app. auto.
      - rewrite (N1 k (or_introl eq_refl)) in Hq. injection Hq as <-. cbn [pl_add_fkeys]. split; [exact N3|].
        destruct (alone_ok ak k G) as (_ & E). rewrite E. apply incl_refl.
      - injection Hq as <-. split; [exact N3|apply incl_refl]. }
    destruct S as (S1 & S2). cbn [flat_map]. rewrite app_assoc.
    assert (I1 : incl (keys (pl_add_fkeys q) ++ flat_map ch_recreate_key l) (keys (pl_add_fkeys p'))).
    { apply IH; [exact G'|exact H|exact S1|]. intros k k' Hk Hk'. apply N2; right; assumption. }
    intros x Hx. apply I1. apply in_app_or in Hx. apply in_or_app. destruct Hx as [Hx|Hx]; [left; apply S2; exact Hx|right; exact Hx].
Qed.

Theorem constraints_come_back : forall d flt prefix src dest files ws, sql_dialect d = true ->
  unique_names (ct_schemas src) -> unique_names (ct_schemas dest) ->
  readable_types d (ct_schemas src) -> readable_types d (ct_schemas dest) -> named_keys (ct_schemas dest) ->
  same_kinds (ct_schemas src) (ct_schemas dest) -> single_primary_keys (ct_schemas src) ->
  (d = SQLServer -> new_pairs (ct_schemas src) (ct_schemas dest)) ->
  results d flt prefix src dest false = Ok (files, ws) ->
  forall pre t c post, forward files = pre ++ QDropConstraint t c :: post -> constraint_comes_back t c post.
Proof.
  intros d flt prefix src dest files ws Q Us Ud Rs Rd NK SK SP NP H pre t c post F.
  destruct (segments _ _ _ _ _ _ _ _ Q H) as (l & p & alts & C & R & A & G). rewrite G in F. clear G H. symmetry in F.
  rewrite (pure_changes d src dest false Q (proj1 Us) (proj1 Ud) Rs Rd) in C. injection C as C.
  destruct (constraint_position _ _ _ _ _ _ _ _ _ Q A F) as [(Hc & AP)|(a & Ha & -> & Hc & AP)]; clear F A.
  - apply drops_part_in in Hc as X. destruct X as (t' & c' & X & Kc). injection X as <- <-.
    destruct (record_keys _ _ _ _ empty_plan_ok R) as (_ & P1 & _). cbn [empty_plan pl_drop_fkeys keys no_groups gr_list concat app] in P1.
    pose proof (Permutation_in _ P1 Kc) as Y. apply in_flat_map in Y. destruct Y as (ch & Hch & Y).
    assert (OR : forall ch, In ch l -> made_change ch \/ exists s d', counterparts (ct_schemas src) (ct_schemas dest) s d'
                 /\ In ch (pure_alter d src false s d')).
    { intros x Hx. rewrite <- C in Hx. apply change_origin. exact Hx. }
    assert (D : d = SQLServer /\ ch = ChRecreateFkey c).
    { destruct (OR ch Hch) as [M|(s & d' & CP & M)]; [destruct ch; try contradiction M; contradiction Y|].
      assert (X : forall cc, In (ChDropFkey cc) (pure_alter d src false s d') -> False).
      { intros cc Z. destruct d; try discriminate Q; cbn [pure_alter] in Z;
          unfold mysql_changes, postgres_changes, sqlserver_changes in Z; cbn [keep filter map app] in Z;
          repeat (apply in_app_or in Z; destruct Z as [Z|Z]);
          try (apply in_map_iff in Z; destruct Z as (? & Z & _); discriminate);
          apply recorded_in in Z; discriminate. }
      destruct ch; try contradiction Y.
      - exfalso. exact (X _ M).
      - destruct Y as [->|[]]. split; [|reflexivity]. clear X. destruct d; try discriminate Q; [| |reflexivity]; exfalso; cbn [pure_alter] in M;
          unfold mysql_changes, postgres_changes in M; cbn [keep filter map app] in M;
          repeat (apply in_app_or in M; destruct M as [M|M]);
          try (apply in_map_iff in M; destruct M as (? & M & _); discriminate);
          apply recorded_in in M; discriminate. }
    destruct D as (-> & ->). specialize (NP eq_refl).
    assert (RK : forall k, In (ChRecreateFkey k) l -> exists s0 t0, In s0 (ct_schemas src) /\ In t0 (sc_tables s0)
                 /\ In k (tb_constraints t0) /\ con_type k = FOREIGN_KEY).
    { intros k Hk. destruct (OR _ Hk) as [M|(s & d' & CP & M)]; [contradiction M|]. cbn [pure_alter] in M.
      unfold sqlserver_changes in M. cbn [keep filter map app] in M. apply in_app_or in M. destruct M as [M|M].
      { apply in_map_iff in M; destruct M as (? & M & _); discriminate. }
      apply in_app_or in M. destruct M as [M|M].
      { apply in_map_iff in M; destruct M as (? & M & _); discriminate. }
      apply in_app_or in M. destruct M as [M|M].
      2: { apply recorded_in in M. discriminate. }
      apply in_map_iff in M. destruct M as (k' & Z & M). injection Z as ->. apply filter_In in M. destruct M as (M & Tk).
      apply is_fkey_type in Tk. apply dep_cons_in in M. destruct CP as (ss & ds & Hss & _ & _ & Hs & _). exists ss, s. auto. }
    assert (IN : incl (keys (pl_add_fkeys empty_plan) ++ flat_map ch_recreate_key l) (keys (pl_add_fkeys p))).
    { apply (record_recreated SQLServer); [discriminate|exact empty_plan_ok|exact R|reflexivity|].
      intros k c0 Hk Hc0 E. destruct (RK k Hk) as (s0 & t0 & Hs0 & Ht0 & Hk0 & Tk0).
      apply tables_id_pair in E. revert E. apply (NP c0 s0 t0 k); try assumption.
      destruct (OR _ Hc0) as [M|(s & d' & CP & M)]; [contradiction M|]. cbn [pure_alter] in M.
      unfold sqlserver_changes in M. cbn [keep filter map app] in M. apply in_app_or in M. destruct M as [M|M].
      { apply in_map_iff in M; destruct M as (? & M & _); discriminate. }
      apply in_app_or in M. destruct M as [M|M].
      2: { apply in_app_or in M. destruct M as [M|M].
           - apply in_map_iff in M; destruct M as (? & M & _); discriminate.
           - apply recorded_in in M. discriminate. }
      apply in_map_iff in M. destruct M as (k' & Z & M). injection Z as ->. apply filter_In in M. destruct M as (M & Tk).
      apply is_fkey_type in Tk. apply gone_in in M. destruct M as (M1 & M2 & M3). exists s, d'. split; [exact CP|].
      split; [exact M1|]. split; [exact Tk|]. split; [exact M2|].
      intros a Ha Na. destruct CP as (ss & ds & Hss & Hds & _ & Hs & Hd & _).
      assert (NE : con_name c0 <> []) by (eapply NK; try eassumption; auto).
      unfold find_con, pick_con in M3. replace (some_name (con_name c0)) with true in M3
        by (destruct (con_name c0); [congruence|reflexivity]).
      destruct (proj2 Us ss s Hss Hs) as (_ & U2 & _).
      destruct (con_ignore a) eqn:Ia; [reflexivity|]. exfalso.
      apply (proj1 (pick_none con_name con_ignore _ _ U2) M3 a Ha Ia Na). }
    cbn [empty_plan pl_add_fkeys keys no_groups gr_list concat app] in IN.
    assert (Kadd : In c (keys (pl_add_fkeys p))).
    { apply IN. apply in_flat_map. exists (ChRecreateFkey c). split; [exact Hch|]. cbn. auto. }
    exists c. split; [reflexivity|]. split; [reflexivity|]. left. apply AP. unfold adds_part. apply in_or_app. right.
    unfold keys in Kadd. apply in_concat in Kadd. destruct Kadd as (g & Hg & Kadd).
    apply in_flat_map. exists g. split; [exact Hg|]. cbn [add_key_stmts].
    apply in_map_iff. exists c. split; [|exact Kadd]. f_equal.
    apply in_flat_map in Hc. destruct Hc as (g' & _ & Hc). cbn [drop_key_stmts] in Hc. apply in_map_iff in Hc.
    destruct Hc as (c'' & Z & _). injection Z as <- ->. reflexivity.
  - destruct (record_lists _ _ _ _ R) as (_ & _ & _ & _ & L5 & _). cbn in L5. rewrite L5 in Ha.
    apply in_flat_map in Ha. destruct Ha as (ch & Hch & Ha). destruct ch; try contradiction Ha. destruct Ha as [->|[]].
    rewrite <- C in Hch. apply change_origin in Hch. destruct Hch as [[]|(s & d' & CP & Hch)].
    destruct (alter_comes_back _ _ _ _ _ _ _ _ Q SK SP CP Hch Hc) as (c' & Hc' & T & FK).
    exists c'. split; [exact T|]. split; [exact FK|].
    destruct d; try discriminate Q; cbn [adds_keys] in AP.
    + right. apply (AP c'); cbn; auto.
    + left. apply (AP c'); cbn; auto.
    + left. apply (AP c'); cbn; auto.
Qed.
