(** The generated files are run by migrate as intended. *)
From Coq Require Import Lia Permutation.
From Verif Require Import GoStr GoStrFacts ModelSq ModelHistory ModelMigrate ModelCatalog ModelCache CacheFacts ModelDdl ModelDiff ModelDiffSql SpecDiff DiffLookup DiffFacts DiffSelf DiffPlan DiffSegments DiffDrops DiffKeys DiffCreate DiffOrder DiffNames.

(** ** Plain names *)
Lemma plain_app : forall a b, plain a -> plain b -> plain (a ++ b).
Proof. intros a b (A1 & A2) (B1 & B2). split; intro H; apply in_app_or in H; tauto. Qed.
Lemma plain_nil : plain [].
Proof. split; intros []. Qed.
Lemma plain_lit : forall s, forallb (fun c => negb (ceqb c "."%char) && negb (ceqb c "/"%char)) s = true -> plain s.
Proof.
  intros s H. rewrite forallb_forall in H. split; intro I; specialize (H _ I); rewrite ceqb_refl in H; [discriminate|].
  rewrite andb_false_r in H. discriminate.
Qed.
Lemma plain_under : forall s, plain s -> plain (under s).
Proof.
  intros s (P1 & P2). unfold under, replace_byte. split; intro H; apply in_flat_map in H; destruct H as (x & Hx & H);
    (destruct (ceqb x SPACE); destruct H as [H|[]]; [discriminate H|]; subst x; contradiction).
Qed.
Lemma plain_table_part : forall cur s t, plain s -> plain t -> plain (table_part cur s t).
Proof.
  intros cur s t S T. unfold table_part. destruct (_ && _).
  - apply plain_app; [apply plain_under, S|]. apply plain_app; [apply plain_lit; reflexivity|apply plain_under, T].
  - apply plain_under, T.
Qed.
Lemma plain_raw_part : forall cur s t, plain s -> plain t -> plain (raw_part cur s t).
Proof.
  intros cur s t S T. unfold raw_part. destruct (_ && _); [|exact T].
  apply plain_app; [exact S|]. apply plain_app; [apply plain_lit; reflexivity|exact T].
Qed.

(** ** Steps *)
Definition plain_step (p : step) : Prop :=
  (exists r, ps_base p = underscore :: r /\ plain r) /\ file_ext p /\ (ps_ext p = B".tx.sql" -> ps_undo p = None).
Definition plain_key (c : constraint) : Prop :=
  plain (con_name c) /\ plain (con_schema c) /\ plain (con_table c) /\ plain (con_refschema c) /\ plain (con_reftable c).
Lemma plain_pair_part : forall cur c, plain_key c -> plain (pair_part cur c).
Proof.
  intros cur c (_ & P1 & P2 & P3 & P4). unfold pair_part. apply plain_app; [apply plain_table_part; assumption|].
  apply plain_app; [apply plain_lit; reflexivity|apply plain_table_part; assumption].
Qed.
Lemma plain_raw_pair : forall cur c, plain_key c -> plain (raw_pair cur c).
Proof.
  intros cur c (_ & P1 & P2 & P3 & P4). unfold raw_pair. apply plain_app; [apply plain_raw_part; assumption|].
  apply plain_app; [apply plain_lit; reflexivity|apply plain_raw_part; assumption].
Qed.
Lemma plain_first_key : forall l, (forall c, In c l -> plain_key c) -> plain_key (first_key l).
Proof.
  intros [|c l] H; [|apply H; left; reflexivity]. repeat split; intros [].
Qed.
Record plain_plan (p : plan) : Prop := {
  pp_drop : forall c, In c (keys (pl_drop_fkeys p)) -> plain_key c;
  pp_fast : forall c, In c (keys (pl_fast_fkeys p)) -> plain_key c;
  pp_add : forall c, In c (keys (pl_add_fkeys p)) -> plain_key c;
  pp_schemas : forall s, In s (pl_drop_schemas p) -> plain (sc_name s);
  pp_alters : forall a, In a (pl_alters p) -> plain (al_schema a) /\ plain (al_table a)
    /\ (forall x, In x (al_create_indexes a) -> plain (ix_name x)) /\ forall c, In c (al_add_constraints a) -> plain (con_name c)
}.
Lemma step_plain : forall base rest ext l u, plain base -> plain rest -> file_ext (Step [] ext l u) -> (ext = B".tx.sql" -> u = None) ->
  plain_step (Step (underscore :: base ++ rest) ext l u).
Proof. intros base rest ext l u B R E U. split; [|split; [exact E|exact U]]. exists (base ++ rest). split; [reflexivity|]. apply plain_app; assumption. Qed.
Ltac plain_lits := apply plain_lit; reflexivity.
Ltac tx := first [left; reflexivity | right; left; reflexivity | right; right; reflexivity].
Ltac plain_it base := apply (step_plain (B base)); [plain_lits| |tx|first [reflexivity | intro; discriminate]].

Lemma mysql_plain : forall cur p q, plain_plan p -> In q (mysql_steps cur p) -> plain_step q.
Proof.
  intros cur p q P H. unfold mysql_steps in H. split_steps H.
  - plain_it "drop_"%string. apply plain_under. apply (pp_drop _ P). exact H.
  - plain_it "schemas"%string. apply plain_nil.
  - plain_it "tables"%string. apply plain_nil.
  - destruct (pp_alters _ P _ H) as (P1 & P2 & _). plain_it "alter_"%string. apply plain_table_part; assumption.
  - plain_it "add_"%string. apply plain_under. apply (pp_add _ P). exact H.
Qed.
Lemma postgres_plain : forall flt cat p l w q, plain_plan p -> postgres_steps flt cat p = Ok (l, w) -> In q l -> plain_step q.
Proof.
  intros flt cat p l w q P H Hq. unfold postgres_steps in H. invert_binds H. injection H as <- _.
  assert (G : forall g k, In k (gr_list g) -> (forall c, In c (keys g) -> plain_key c) -> plain_key (first_key k)).
  { intros g k Hk K. apply plain_first_key. intros c Hc. apply K. eapply keys_in_group; eassumption. }
  split_steps Hq.
  - plain_it "drop_"%string. apply plain_app; [|plain_lits]. apply plain_pair_part. eapply G; [exact Hq|apply (pp_drop _ P)].
  - plain_it "schemas"%string. apply plain_nil.
  - plain_it "tables"%string. apply plain_nil.
  - apply in_flat_map in Hq. destruct Hq as ((l' & w') & Hx & Hq). apply (collected _ _ _ _ E) in Hx. destruct Hx as (a & Ha & A).
    destruct (pp_alters _ P _ Ha) as (P1 & P2 & P3 & P4). cbn [fst] in Hq.
    unfold alter_steps_postgres in A. invert_binds A. injection A as <- _. destruct Hq as [<-|Hq].
    + plain_it "alter_"%string. apply plain_table_part; assumption.
    + split_steps Hq.
      * plain_it "validate_"%string. apply plain_app; [apply plain_table_part; assumption|plain_lits].
      * plain_it "create_"%string. apply plain_under. apply P3. exact Hq.
      * apply in_flat_map in Hq. destruct Hq as (c & Hc & [<-|[<-|[]]]); [plain_it "create_"%string|plain_it "add_"%string]; apply plain_under, P4, Hc.
  - plain_it "add_"%string. apply plain_app; [|plain_lits]. apply plain_pair_part. eapply G; [exact Hq|apply (pp_fast _ P)].
  - apply in_flat_map in Hq. destruct Hq as (c & Hc & [<-|[<-|[]]]); [plain_it "add_"%string|plain_it "validate_"%string];
      (apply plain_app; [|plain_lits]; apply plain_pair_part; eapply G; [exact Hc|apply (pp_add _ P)]).
Qed.
Lemma sqlserver_plain : forall cat p l w q, plain_plan p -> sqlserver_steps cat p = Ok (l, w) -> In q l -> plain_step q.
Proof.
  intros cat p l w q P H Hq. unfold sqlserver_steps in H. invert_binds H. injection H as <- _.
  assert (G : forall g k, In k (gr_list g) -> (forall c, In c (keys g) -> plain_key c) -> plain_key (first_key k)).
  { intros g k Hk K. apply plain_first_key. intros c Hc. apply K. eapply keys_in_group; eassumption. }
  split_steps Hq.
  - plain_it "drop_"%string. apply plain_app; [|plain_lits]. apply plain_raw_pair. eapply G; [exact Hq|apply (pp_drop _ P)].
  - plain_it "drop_"%string. apply (pp_schemas _ P). exact Hq.
  - plain_it "create_schemas"%string. apply plain_nil.
  - plain_it "tables"%string. apply plain_nil.
  - apply in_flat_map in Hq. destruct Hq as ((l' & w') & Hx & Hq). apply (collected _ _ _ _ E) in Hx. destruct Hx as (a & Ha & A).
    destruct (pp_alters _ P _ Ha) as (P1 & P2 & P3 & P4). cbn [fst] in Hq.
    unfold alter_steps_sqlserver in A. invert_binds A. injection A as <- _. destruct Hq as [<-|Hq].
    + plain_it "alter_"%string. apply plain_raw_part; assumption.
    + split_steps Hq.
      * plain_it "create_"%string. apply P3. exact Hq.
      * plain_it "add_"%string. apply P4. exact Hq.
  - plain_it "add_"%string. apply plain_app; [|plain_lits]. apply plain_raw_pair. eapply G; [exact Hq|apply (pp_fast _ P)].
  - plain_it "add_"%string. apply plain_app; [|plain_lits]. apply plain_raw_pair. eapply G; [exact Hq|apply (pp_add _ P)].
Qed.

(** ** The plan *)
Definition keys_in (P : constraint -> Prop) (p : plan) : Prop :=
  (forall c, In c (keys (pl_drop_fkeys p)) -> P c) /\ (forall c, In c (keys (pl_fast_fkeys p)) -> P c)
  /\ (forall c, In c (keys (pl_add_fkeys p)) -> P c).
Definition key_in_change (c : change) : list constraint :=
  match c with ChDropFkey k | ChFastFkey k | ChAddFkey k | ChRecreateFkey k => [k] | _ => [] end.
Lemma set_nth_keys : forall (P : constraint -> Prop) n x l, (forall c, In c (concat l) -> P c) -> (forall c, In c x -> P c) ->
  forall c, In c (concat (set_nth n x l)) -> P c.
Proof.
  intros P n x l L X c H. apply in_concat in H. destruct H as (g & Hg & Hc). apply set_nth_in in Hg.
  destruct Hg as [->|Hg]; [auto|]. apply L. apply in_concat. eauto.
Qed.
Lemma append_keys : forall (P : constraint -> Prop) n k l, (forall c, In c (concat l) -> P c) -> P k ->
  forall c, In c (concat (append_to n k l)) -> P c.
Proof.
  intros P n k l L K. apply set_nth_keys; [exact L|]. intros c H. apply in_app_or in H. destruct H as [H|[<-|[]]]; [|exact K].
  apply L. apply in_concat. exists (nth n l []). split; [|exact H]. destruct (nth_in_or_default n l []) as [I|E]; [exact I|].
  rewrite E in H. contradiction.
Qed.
Lemma snoc_keys : forall (P : constraint -> Prop) k l, (forall c, In c (concat l) -> P c) -> P k ->
  forall c, In c (concat (l ++ [[k]])) -> P c.
Proof.
  intros P k l L K c H. rewrite concat_app in H. apply in_app_or in H. destruct H as [H|H]; [auto|]. cbn in H. destruct H as [<-|[]]. exact K.
Qed.
Lemma record_keys_in : forall (P : constraint -> Prop) d l p p', (forall c k, In c l -> In k (key_in_change c) -> P k) ->
  keys_in P p -> record_all d p l = Ok p' -> keys_in P p'.
Proof.
  intros P d l. induction l as [|c l IH]; intros p p' L G H; cbn [record_all] in H; [injection H as <-; exact G|].
  apply bindr_inv in H. destruct H as (q & Q & H). apply (IH q p'); [intros; eapply L; [right; eassumption|assumption]| |exact H].
  assert (K : forall k, In k (key_in_change c) -> P k) by (intros k Hk; apply (L c k); [left; reflexivity|exact Hk]).
  clear IH L H. destruct G as (G1 & G2 & G3). destruct p as [dk dss css dts cts als fk ak ws].
  unfold keys_in, keys in *. cbn [pl_drop_fkeys pl_fast_fkeys pl_add_fkeys] in *.
  assert (EN : forall g k, (forall c, In c (concat (gr_list g)) -> P c) -> P k ->
             forall c, In c (concat (gr_list ((match d with MySQL => alone | _ => add_key end) g k))) -> P c).
  { intros g k Gg Pk. assert (A : forall c, In c (concat (gr_list (add_key g k))) -> P c).
    { unfold add_key. destruct (gr_pos g (tables_id k)); cbn [gr_list]; [apply append_keys|apply snoc_keys]; assumption. }
    destruct d; try exact A. apply snoc_keys; assumption. }
  unfold record_change in Q. destruct c; cbn [key_in_change] in K; try (injection Q as <-; cbn [pl_drop_fkeys pl_fast_fkeys pl_add_fkeys]; auto; fail).
  - injection Q as <-. cbn [pl_drop_fkeys pl_fast_fkeys pl_add_fkeys]. split; [|auto]. apply EN; [exact G1|apply K; left; reflexivity].
  - assert (Pc : P c) by (apply K; left; reflexivity).
    destruct d; injection Q as <-; cbn [pl_drop_fkeys pl_fast_fkeys pl_add_fkeys]; (split; [exact G1|split]); try assumption; apply EN; assumption.
  - injection Q as <-. cbn [pl_drop_fkeys pl_fast_fkeys pl_add_fkeys]. split; [exact G1|]. split; [exact G2|]. apply EN; [exact G3|apply K; left; reflexivity].
  - assert (Pc : P c) by (apply K; left; reflexivity).
    assert (D : forall k, In k (concat (gr_list (match gr_pos dk (tables_id c) with Some n => Groups (append_to n c (gr_list dk)) (gr_pos dk) | None => alone dk c end))) -> P k).
    { destruct (gr_pos dk (tables_id c)); cbn [gr_list]; [apply append_keys|apply snoc_keys]; assumption. }
    destruct (gr_pos ak (tables_id c)) as [n|].
    + destruct (nth_error (gr_list fk) n) as [g|] eqn:N; [|discriminate Q]. injection Q as <-. cbn [pl_drop_fkeys pl_fast_fkeys pl_add_fkeys gr_list].
      split; [exact D|]. split; [exact G2|]. apply set_nth_keys; [exact G3|]. intros k H. apply in_app_or in H. destruct H as [H|[<-|[]]]; [|exact Pc].
      apply G2. apply in_concat. exists g. split; [eapply nth_error_In; exact N|exact H].
    + injection Q as <-. cbn [pl_drop_fkeys pl_fast_fkeys pl_add_fkeys]. split; [exact D|]. split; [exact G2|]. apply snoc_keys; assumption.
Qed.
Lemma drop_schemas_in : forall alter drop src dest s, In (ChDropSchema s) (all_changes alter drop src dest) ->
  (forall u v, ~ In (ChDropSchema s) (alter u v)) -> In s src.
Proof.
  intros alter drop src dest s H N. unfold all_changes in H. apply in_app_or in H. destruct H as [H|H].
  - apply keep_in in H. apply in_flat_map in H. destruct H as (x & Hx & H). apply live_schemas_in in Hx. destruct Hx as (Hx & _).
    unfold drop_schema_changes in H. destruct (find_schema dest (sc_name x)); [contradiction|].
    apply in_app_or in H. destruct H as [H|H].
    + destruct (is_empty (sc_name x)); [contradiction|]. destruct H as [[= <-]|[]]. exact Hx.
    + apply in_flat_map in H. destruct H as (t & _ & H). apply in_map_iff in H. destruct H as (k & Z & _). discriminate Z.
  - exfalso. apply in_flat_map in H. destruct H as (ds & _ & H).
    assert (CC : forall t, ~ In (ChDropSchema s) (create_changes t)).
    { intros t [Z|Z]; [discriminate Z|]. apply in_map_iff in Z. destruct Z as (k & Z & _). discriminate Z. }
    unfold schema_changes in H. destruct (find_schema src (sc_name ds)) as [ss|].
    + apply in_app_or in H. destruct H as [H|H].
      * apply keep_in in H. apply in_flat_map in H. destruct H as (t & _ & H). unfold drop_table_changes in H.
        destruct (find_table ds (tb_name t)); [contradiction|]. destruct H as [Z|Z]; [discriminate Z|]. apply in_map_iff in Z. destruct Z as (k & Z & _). discriminate Z.
      * apply in_flat_map in H. destruct H as (t & _ & H). unfold table_changes in H. destruct (find_table ss (tb_name t)); [exact (N _ _ H)|exact (CC _ H)].
    + apply in_app_or in H. destruct H as [H|H].
      * destruct (is_empty (sc_name ds)); [contradiction|]. destruct H as [Z|[]]. discriminate Z.
      * apply in_flat_map in H. destruct H as (t & _ & H). exact (CC _ H).
Qed.
Lemma plain_plan_of : forall d src dest drop p, sql_dialect d = true -> unique_tables (ct_schemas src) -> unique_tables (ct_schemas dest) ->
  plain_names (ct_schemas src) -> plain_names (ct_schemas dest) -> plain (ct_current src) ->
  record_all d empty_plan (all_changes (pure_alter d src drop) drop (ct_schemas src) (ct_schemas dest)) = Ok p -> plain_plan p.
Proof.
  intros d src dest drop p Q Us Ud Ps Pd Pc R.
  assert (KO : forall l c, plain_names l -> key_of l c -> plain_key c).
  { intros l c P (s & t & Hs & Ht & Hc & _). destruct (P s Hs) as (_ & P'). destruct (P' t Ht) as (_ & _ & P'' & _). exact (P'' c Hc). }
  assert (K : keys_in plain_key p).
  { apply (record_keys_in plain_key _ _ _ _) with (3 := R); [|split; [|split]; intros ? []]. intros c k Hc Hk.
    destruct (all_changes_in _ _ _ _ _ _ Q Hc)
          as [(? & -> & Z)|[(? & -> & Z)|[(? & -> & Z)|[(? & -> & _ & Z)|[(? & ->)|[(? & ? & ? & ->)|[(? & ->)|[(? & ->)|[(? & ->)|(? & ->)]]]]]]]]];
      try contradiction Hk; destruct Hk as [<-|[]]; [apply (KO (ct_schemas src))|apply (KO (ct_schemas dest))|apply (KO (ct_schemas dest))|apply (KO (ct_schemas src))]; assumption. }
  destruct K as (K1 & K2 & K3). destruct (record_lists _ _ _ _ R) as (L1 & _ & _ & _ & L5 & _). cbn - [all_changes] in L1, L5.
  split; try assumption.
  - intros s Hs. rewrite L1 in Hs. apply in_flat_map in Hs. destruct Hs as (c & Hc & Hs). destruct c; try contradiction Hs. destruct Hs as [<-|[]].
    apply drop_schemas_in in Hc; [exact (proj1 (Ps _ Hc))|]. intros u v H.
    destruct (pure_alter_changes _ _ _ _ _ _ Q H) as [(k & Z & _)|[(k & Z & _)|[(k & Z & _)|[(a & Z)|(x & y & z & Z)]]]]; discriminate Z.
  - intros a Ha. rewrite L5, (alters_origin _ _ _ _ _ Q Us Ud) in Ha. apply in_flat_map in Ha. destruct Ha as ((s & t) & P & Ha).
    apply in_flat_map in Ha. destruct Ha as (c & Hc & Ha). apply recorded_in in Hc. subst c. destruct Ha as [<-|[]].
    apply old_tables_in in P. destruct P as (ss & ds & Hss & Hds & _ & Hs & Ht & _).
    destruct (proj2 (Ps _ Hss) _ Hs) as (A1 & A2 & A3 & A4). destruct (proj2 (Pd _ Hds) _ Ht) as (B1 & B2 & B3 & B4).
    assert (OI : forall x, In x (only_ixs t s) -> plain (ix_name x)) by (intros x Hx; apply gone_in in Hx; apply B4, Hx).
    assert (OC : forall x, In x (filter is_key (only_cons t s)) -> plain (con_name x)).
    { intros x Hx. apply filter_In in Hx. destruct Hx as (Hx & _). apply gone_in in Hx. apply B3, Hx. }
    destruct d; try discriminate Q; cbn [the_alter].
    + cbn. auto.
    + cbn. split; [exact B2|]. split; [exact B1|]. split; [exact OI|]. intros c Hc. unfold added_mysql in Hc. apply in_flat_map in Hc.
      destruct Hc as (b & Hb & Hc). destruct (con_ignore b); [contradiction|]. assert (c = b) as ->; [|apply B3, Hb].
      destruct (find_con s (con_name b)); [destruct (rekeyed c0 b) in Hc|destruct (is_key b) in Hc]; try contradiction; destruct Hc as [<-|[]]; reflexivity.
    + cbn [the_alter_sqlserver al_schema al_table al_create_indexes al_add_constraints]. split; [|split; [exact B1|]].
      * unfold schema_sqlserver. destruct (tb_schema t); [|exact B2]. destruct (ct_current src); [apply plain_lit; reflexivity|exact Pc].
      * split.
        -- intros x Hx. apply in_app_or in Hx. destruct Hx as [Hx|Hx]; [auto|]. unfold dep_ixs in Hx. apply in_flat_map in Hx. destruct Hx as (q & _ & Hx).
           apply filter_In in Hx. destruct Hx as (Hx & _). apply dependents_in in Hx. apply filter_In in Hx. apply A4, Hx.
        -- intros x Hx. apply in_app_or in Hx. destruct Hx as [Hx|Hx]; [auto|]. apply filter_In in Hx. destruct Hx as (Hx & _).
           apply dep_cons_in in Hx. apply A3, Hx.
Qed.
Lemma plain_steps : forall d flt prefix src dest drop files ws, sql_dialect d = true ->
  unique_tables (ct_schemas src) -> unique_tables (ct_schemas dest) -> readable_types d (ct_schemas src) -> readable_types d (ct_schemas dest) ->
  plain_names (ct_schemas src) -> plain_names (ct_schemas dest) -> plain (ct_current src) ->
  results d flt prefix src dest drop = Ok (files, ws) ->
  exists l, files = number prefix l /\ Forall plain_step l.
Proof.
  intros d flt prefix src dest drop files ws Q Us Ud Rs Rd Ps Pd Pc H. pose proof (pure_changes d src dest drop Q Us Ud Rs Rd) as C.
  destruct d; try discriminate Q; cbn [results] in H; cbn [code_alter] in C.
  - unfold new_postgres_migration in H. rewrite C in H. cbn [bindr] in H. invert_binds H. destruct x0 as (l & w). injection H as <- _.
    exists l. split; [reflexivity|]. apply Forall_forall. intros q Hq. eapply postgres_plain; [|exact E0|exact Hq].
    exact (plain_plan_of Postgres src dest drop x eq_refl Us Ud Ps Pd Pc E).
  - unfold new_mysql_migration in H. rewrite C in H. cbn [bindr] in H. invert_binds H. injection H as <- _.
    eexists. split; [reflexivity|]. apply Forall_forall. intros q Hq. eapply mysql_plain; [|exact Hq].
    exact (plain_plan_of MySQL src dest drop x eq_refl Us Ud Ps Pd Pc E).
  - unfold new_sqlserver_migration in H. rewrite C in H. cbn [bindr] in H. invert_binds H. destruct x0 as (l & w). injection H as <- _.
    exists l. split; [reflexivity|]. apply Forall_forall. intros q Hq. eapply sqlserver_plain; [|exact E0|exact Hq].
    exact (plain_plan_of SQLServer src dest drop x eq_refl Us Ud Ps Pd Pc E).
Qed.

(** ** Numbered files *)
Definition stem (prefix : bytes) (n : nat) (p : step) : bytes := prefix ++ B"_" ++ pad2 n ++ ps_base p.
Lemma plain_digits : forall s, Forall (fun c => is_digit c = true) s -> plain s.
Proof. intros s H. rewrite Forall_forall in H. split; intro I; specialize (H _ I); discriminate H. Qed.
Lemma pad2_digits : forall n, Forall (fun c => is_digit c = true) (pad2 n).
Proof. intro n. unfold pad2. destruct (n <? 10); [constructor; [reflexivity|]|]; apply N_dec_digits. Qed.
Lemma stem_plain : forall prefix n p, plain prefix -> plain_step p -> plain (stem prefix n p).
Proof.
  intros prefix n p P ((r & E & R) & _). unfold stem. apply plain_app; [exact P|]. apply plain_app; [apply plain_lit; reflexivity|].
  apply plain_app; [apply plain_digits, pad2_digits|]. rewrite E. apply (plain_app [underscore]); [apply plain_lit; reflexivity|exact R].
Qed.
Lemma no_undo_suffix : forall x e, plain x -> (e = B".sql" \/ e = B".tx.sql" \/ e = B".txoff.sql") -> has_suffix (x ++ e) (B".undo.sql") = false.
Proof.
  intros x e (P & _) E. unfold has_suffix. rewrite rev_app_distr.
  assert (P' : ~ In "."%char (rev x)) by (intro I; apply in_rev in I; contradiction).
  destruct E as [E|[E|E]]; subst e; try reflexivity.
  change (has_prefix (rev x) (B"odnu.") = false). destruct (has_prefix (rev x) (B"odnu.")) eqn:H; [|reflexivity].
  apply has_prefix_iff in H. destruct H as (r & H). exfalso. apply P'. rewrite H. cbn. auto 8.
Qed.
Lemma ext_sql : forall x e, (e = B".sql" \/ e = B".tx.sql" \/ e = B".txoff.sql") -> has_suffix (x ++ e) (B".sql") = true.
Proof.
  intros x e E. apply has_suffix_iff. destruct E as [E|[E|E]]; subst e.
  - exists x. reflexivity.
  - exists (x ++ B".tx"). rewrite <- app_assoc. reflexivity.
  - exists (x ++ B".txoff"). rewrite <- app_assoc. reflexivity.
Qed.
Lemma plain_basename : forall s, ~ In "/"%char s -> basename s = s.
Proof.
  intros s. unfold basename.
  assert (G : forall acc, ~ In "/"%char s -> after_last_slash s acc = rev acc ++ s).
  { induction s as [|c s IH]; intros acc H; cbn; [rewrite app_nil_r; reflexivity|].
    destruct (ceqb c "/"%char) eqn:E; [apply ceqb_eq in E; subst c; destruct H; left; reflexivity|].
    rewrite IH by (intro I; apply H; right; exact I). cbn [rev]. rewrite <- app_assoc. reflexivity. }
  intro H. rewrite G by exact H. reflexivity.
Qed.
Lemma not_skipped : forall x e, plain x -> (e = B".sql" \/ e = B".tx.sql" \/ e = B".txoff.sql") ->
  x <> B"schema" -> x <> B"indexes" -> x <> B"constraints" -> skipped (x ++ e) = false.
Proof.
  intros x e P E N1 N2 N3. unfold skipped. rewrite (ext_sql x e E), (no_undo_suffix x e P E). cbn [negb orb].
  rewrite plain_basename.
  2: { intro I. apply in_app_or in I. destruct I as [I|I]; [exact (proj2 P I)|]. destruct E as [E|[E|E]]; subst e; cbn in I; intuition discriminate. }
  assert (G : forall y, x <> B y -> plain (B y) -> beqb (x ++ e) (B y ++ B".sql") = false).
  { intros y N Py. destruct (beqb _ _) eqn:H; [|reflexivity]. apply beqb_eq in H. exfalso.
    assert (F : cut_byte "."%char (x ++ e) = cut_byte "."%char (B y ++ B".sql")) by (rewrite H; reflexivity).
    assert (C : forall a b, ~ In "."%char a -> cut_byte "."%char (a ++ "."%char :: b) = Some (a, b)).
    { intros a b. induction a as [|c a IH]; intro Na; [reflexivity|]. cbn. destruct (ceqb c "."%char) eqn:Ec.
      - apply ceqb_eq in Ec. subst c. destruct Na. left. reflexivity.
      - rewrite IH by (intro I; apply Na; right; exact I). reflexivity. }
    destruct E as [E|[E|E]]; subst e.
    - change (B".sql") with ("."%char :: B"sql") in F. rewrite (C x _ (proj1 P)), (C _ _ (proj1 Py)) in F. injection F as F. contradiction.
    - change (B".tx.sql") with ("."%char :: B"tx.sql") in F. change (B".sql") with ("."%char :: B"sql") in F. rewrite (C x _ (proj1 P)), (C _ _ (proj1 Py)) in F. discriminate F.
    - change (B".txoff.sql") with ("."%char :: B"txoff.sql") in F. change (B".sql") with ("."%char :: B"sql") in F. rewrite (C x _ (proj1 P)), (C _ _ (proj1 Py)) in F. discriminate F. }
  change (B"schema.sql") with (B"schema" ++ B".sql"). change (B"indexes.sql") with (B"indexes" ++ B".sql"). change (B"constraints.sql") with (B"constraints" ++ B".sql").
  rewrite !G; try assumption; try (apply plain_lit; reflexivity). reflexivity.
Qed.

(** ** What migrate does with the names *)
Lemma filter_plain_loop : forall l res rep, (forall f, In f l -> repeatable f = false) ->
  sort_and_filter_loop l res rep = res ++ filter (fun f => negb (skipped f)) l ++ rep.
Proof.
  intro l. induction l as [|f l IH]; intros res rep H; [reflexivity|]. cbn [sort_and_filter_loop filter].
  destruct (skipped f); cbn [negb]; [apply IH; intros; apply H; right; assumption|].
  rewrite (H f) by (left; reflexivity). rewrite IH by (intros; apply H; right; assumption). rewrite <- app_assoc. reflexivity.
Qed.
Lemma plain_not_repeatable : forall f, ~ In "/"%char f -> repeatable f = false.
Proof.
  intros f H. unfold repeatable. destruct (has_prefix _ _) eqn:E; [|reflexivity]. apply has_prefix_iff in E. destruct E as (r & ->).
  exfalso. apply H. apply in_or_app. left. cbn. auto 20.
Qed.
Lemma stem_not_word : forall prefix n p w, ~ In underscore w -> stem prefix n p <> w.
Proof. intros prefix n p w H E. apply H. rewrite <- E. unfold stem. apply in_or_app. right. left. reflexivity. Qed.
Lemma has_suffix_app : forall x e, has_suffix (x ++ e) e = true.
Proof. intros x e. apply has_suffix_iff. exists x. reflexivity. Qed.
Lemma undo_skipped : forall x, skipped (x ++ B".undo.sql") = true.
Proof. intro x. unfold skipped. rewrite has_suffix_app. rewrite orb_true_r. reflexivity. Qed.
Lemma number_run : forall prefix l n, plain prefix -> Forall plain_step l ->
  filter (fun f => negb (skipped f)) (map fl_name (number_from prefix n l)) = map fl_name (filter (fun f => negb (fl_undo f)) (number_from prefix n l)).
Proof.
  intros prefix l. induction l as [|p l IH]; intros n P F; [reflexivity|]. pose proof (Forall_inv F) as Fp. apply Forall_inv_tail in F.
  cbn [number_from map filter fl_name fl_undo negb].
  assert (W : forall w, ~ In underscore w -> prefix ++ B"_" ++ pad2 n ++ ps_base p <> w) by (intros w; apply (stem_not_word prefix n p w)).
  rewrite not_skipped; [|exact (stem_plain prefix n p P Fp)|exact (proj1 (proj2 Fp))|..]; try (apply W; cbn; intuition discriminate).
  cbn [negb map fl_name]. f_equal. destruct (ps_undo p); cbn [app map filter fl_name fl_undo negb]; [rewrite undo_skipped; cbn [negb]|]; apply IH; assumption.
Qed.
Lemma number_slashes : forall prefix l n f, plain prefix -> Forall plain_step l -> In f (map fl_name (number_from prefix n l)) -> ~ In "/"%char f.
Proof.
  intros prefix l. induction l as [|p l IH]; intros n f P F H; [contradiction|]. pose proof (Forall_inv F) as Fp. apply Forall_inv_tail in F.
  pose proof (proj2 (stem_plain prefix n p P Fp)) as S. unfold stem in S. cbn [number_from map fl_name] in H. destruct H as [<-|H].
  - intro I. apply in_app_or in I. destruct I as [I|I]; [exact (S I)|]. destruct (proj1 (proj2 Fp)) as [E|[E|E]]; rewrite E in I; cbn in I; intuition discriminate.
  - rewrite map_app in H. apply in_app_or in H. destruct H as [H|H]; [|exact (IH _ _ P F H)].
    destruct (ps_undo p); [|contradiction]. destruct H as [<-|[]]. cbn [fl_name]. intro I. apply in_app_or in I. destruct I as [I|I]; [exact (S I)|].
    cbn in I; intuition discriminate.
Qed.
Lemma no_dot_suffix : forall x r, plain x -> trim_suffix x ("."%char :: r) = x.
Proof.
  intros x r (P & _). apply trim_suffix_none. destruct (has_suffix _ _) eqn:E; [|reflexivity]. apply has_suffix_iff in E. destruct E as (y & ->).
  exfalso. apply P. apply in_or_app. right. left. reflexivity.
Qed.
Lemma undo_name_plain : forall x e, plain x -> (e = B".sql" \/ e = B".txoff.sql") -> undo_name (x ++ e) = x ++ B".undo.sql".
Proof.
  intros x e P E. unfold undo_name. destruct E as [->|E]; [|subst e].
  - rewrite trim_suffix_app. change (B".txoff") with ("."%char :: B"txoff"). rewrite no_dot_suffix by exact P. reflexivity.
  - change (B".txoff.sql") with (B".txoff" ++ B".sql"). rewrite app_assoc, !trim_suffix_app. reflexivity.
Qed.
Lemma undo_name_tx : forall x, undo_name (x ++ B".tx.sql") = (x ++ B".tx") ++ B".undo.sql".
Proof.
  intro x. unfold undo_name. change (B".tx.sql") with (B".tx" ++ B".sql"). rewrite app_assoc, trim_suffix_app. f_equal.
  apply trim_suffix_none. unfold has_suffix. rewrite rev_app_distr. reflexivity.
Qed.

(** ** Distinct numbers *)
Lemma pad2_dec : forall n, dec_N (pad2 n) = Some (N.of_nat n).
Proof.
  intro n. unfold pad2, nat_dec. destruct (n <? 10) eqn:E.
  - apply Nat.ltb_lt in E. do 10 (destruct n as [|n]; [reflexivity|]). lia.
  - apply dec_N_N_dec.
Qed.
Lemma digits_then_underscore : forall a b x y, Forall (fun c => is_digit c = true) a -> Forall (fun c => is_digit c = true) b ->
  a ++ underscore :: x = b ++ underscore :: y -> a = b /\ x = y.
Proof.
  intro a. induction a as [|c a IH]; intros [|e b] x y A B H; cbn in H.
  - injection H as ->. auto.
  - injection H as <- _. apply Forall_inv in B. discriminate B.
  - injection H as -> _. apply Forall_inv in A. discriminate A.
  - injection H as -> H. destruct (IH b x y (Forall_inv_tail A) (Forall_inv_tail B) H) as (-> & ->). auto.
Qed.
Lemma same_number : forall prefix n m x y, prefix ++ B"_" ++ pad2 n ++ underscore :: x = prefix ++ B"_" ++ pad2 m ++ underscore :: y -> n = m /\ x = y.
Proof.
  intros prefix n m x y H. apply app_inv_head in H. apply app_inv_head in H.
  apply digits_then_underscore in H; [|apply pad2_digits|apply pad2_digits]. destruct H as (E & ->). split; [|reflexivity].
  pose proof (pad2_dec n) as D. rewrite E, pad2_dec in D. injection D as D. lia.
Qed.
Lemma number_shape : forall prefix l n f, Forall plain_step l -> In f (number_from prefix n l) ->
  exists m x, n <= m /\ fl_name f = prefix ++ B"_" ++ pad2 m ++ underscore :: x.
Proof.
  intros prefix l. induction l as [|p l IH]; intros n f F H; [contradiction|]. destruct (Forall_inv F) as ((r & E & _) & _). apply Forall_inv_tail in F.
  cbn [number_from] in H. destruct H as [<-|H].
  - exists n, (r ++ ps_ext p). split; [lia|]. cbn [fl_name]. rewrite E, <- !app_assoc. reflexivity.
  - apply in_app_or in H. destruct H as [H|H].
    + destruct (ps_undo p); [|contradiction]. destruct H as [<-|[]]. exists n, (r ++ B".undo.sql"). split; [lia|]. cbn [fl_name]. rewrite E, <- !app_assoc. reflexivity.
    + destruct (IH _ _ F H) as (m & x & L & N). exists m, x. split; [lia|exact N].
Qed.
Lemma number_later : forall prefix l n p e f, Forall plain_step l -> plain_step p -> In f (number_from prefix (S n) l) ->
  fl_name f <> (prefix ++ B"_" ++ pad2 n ++ ps_base p) ++ e.
Proof.
  intros prefix l n p e f F ((r & E & _) & _) H Z. destruct (number_shape _ _ _ _ F H) as (m & x & L & N). rewrite N, E, <- !app_assoc in Z.
  apply (same_number prefix m n x (r ++ e)) in Z. lia.
Qed.
Lemma number_distinct : forall prefix l n, Forall plain_step l -> NoDup (map fl_name (number_from prefix n l)).
Proof.
  intros prefix l. induction l as [|p l IH]; intros n F; [constructor|]. pose proof (Forall_inv F) as Fp. apply Forall_inv_tail in F.
  cbn [number_from map fl_name].
  assert (L : forall e, ~ In ((prefix ++ B"_" ++ pad2 n ++ ps_base p) ++ e) (map fl_name (number_from prefix (S n) l))).
  { intros e H. apply in_map_iff in H. destruct H as (f & E & H). exact (number_later _ _ _ _ _ _ F Fp H E). }
  destruct (ps_undo p); cbn [app map fl_name]; constructor; try apply L; [|constructor; [apply L|apply IH; exact F]|apply IH; exact F].
  intros [H|H]; [|exact (L _ H)]. apply app_inv_head in H. destruct (proj1 (proj2 Fp)) as [E|[E|E]]; rewrite E in H; discriminate H.
Qed.
(** An undo file directly follows the file it belongs to, and has the name that migrate looks for. *)
Lemma number_undo : forall prefix l n f, plain prefix -> Forall plain_step l -> In f (number_from prefix n l) -> fl_undo f = true ->
  exists a g b, number_from prefix n l = a ++ g :: f :: b /\ fl_undo g = false /\ fl_name f = undo_name (fl_name g).
Proof.
  intros prefix l. induction l as [|p l IH]; intros n f P F H U; [contradiction|]. pose proof (Forall_inv F) as Fp. apply Forall_inv_tail in F.
  cbn [number_from] in H |- *. destruct H as [<-|H]; [discriminate U|]. apply in_app_or in H. destruct H as [H|H].
  - destruct (ps_undo p) eqn:W; [|contradiction]. destruct H as [<-|[]]. eexists [], _, _. split; [reflexivity|]. split; [reflexivity|]. cbn [fl_name].
    symmetry. apply undo_name_plain; [exact (stem_plain prefix n p P Fp)|]. destruct Fp as (_ & [E|[E|E]] & T); auto. rewrite (T E) in W. discriminate W.
  - destruct (IH _ _ P F H U) as (a & g & b & E & G1 & G2).
    match goal with |- context [?x :: ?u ++ _] => exists (x :: u ++ a), g, b end. split; [|auto]. cbn [app]. f_equal. rewrite E. apply app_assoc.
Qed.
Lemma undo_of_step : forall prefix n p, plain prefix -> plain_step p ->
  exists e, undo_name ((prefix ++ B"_" ++ pad2 n ++ ps_base p) ++ ps_ext p) = (prefix ++ B"_" ++ pad2 n ++ ps_base p) ++ e
    /\ (e = B".undo.sql" \/ e = B".tx.undo.sql").
Proof.
  intros prefix n p P Fp. destruct (proj1 (proj2 Fp)) as [E|[E|E]]; rewrite E.
  - exists (B".undo.sql"). split; [|auto]. apply undo_name_plain; [exact (stem_plain prefix n p P Fp)|auto].
  - exists (B".tx.undo.sql"). split; [|auto]. rewrite undo_name_tx, <- app_assoc. reflexivity.
  - exists (B".undo.sql"). split; [|auto]. apply undo_name_plain; [exact (stem_plain prefix n p P Fp)|auto].
Qed.
Lemma undo_shape : forall prefix l n g, plain prefix -> Forall plain_step l -> In g (number_from prefix n l) -> fl_undo g = false ->
  exists m x, n <= m /\ undo_name (fl_name g) = prefix ++ B"_" ++ pad2 m ++ underscore :: x.
Proof.
  intros prefix l. induction l as [|p l IH]; intros n g P F H U; [contradiction|]. pose proof (Forall_inv F) as Fp. apply Forall_inv_tail in F.
  cbn [number_from] in H. destruct H as [<-|H].
  - cbn [fl_name]. destruct (undo_of_step prefix n p P Fp) as (e & E & _). destruct Fp as ((r & Er & _) & _). exists n, (r ++ e). split; [lia|].
    rewrite E, Er, <- !app_assoc. reflexivity.
  - apply in_app_or in H. destruct H as [H|H].
    + destruct (ps_undo p); [|contradiction]. destruct H as [<-|[]]. discriminate U.
    + destruct (IH _ _ P F H U) as (m & x & L & N). exists m, x. split; [lia|exact N].
Qed.
Lemma number_finds_undo : forall prefix l n f g, plain prefix -> Forall plain_step l -> In g (number_from prefix n l) -> In f (number_from prefix n l) ->
  fl_undo g = false -> fl_name f = undo_name (fl_name g) ->
  exists a b, number_from prefix n l = a ++ g :: f :: b /\ fl_undo f = true.
Proof.
  intros prefix l. induction l as [|p l IH]; intros n f g P F Hg Hf U N; [contradiction|]. pose proof (Forall_inv F) as Fp. apply Forall_inv_tail in F.
  cbn [number_from] in Hg, Hf |- *.
  pose proof (undo_of_step prefix n p P Fp) as S.
  destruct Hg as [<-|Hg].
  - cbn [fl_name] in N. destruct S as (e & S & Se). rewrite S in N. destruct Hf as [<-|Hf].
    + exfalso. cbn [fl_name] in N. apply app_inv_head in N. destruct (proj1 (proj2 Fp)) as [E|[E|E]]; rewrite E in N; destruct Se as [Se|Se]; rewrite Se in N; discriminate N.
    + apply in_app_or in Hf. destruct Hf as [Hf|Hf]; [|exfalso; exact (number_later _ _ _ _ _ _ F Fp Hf N)].
      destruct (ps_undo p); [|contradiction]. destruct Hf as [<-|[]]. exists [], (number_from prefix (Datatypes.S n) l). split; reflexivity.
  - apply in_app_or in Hg. destruct Hg as [Hg|Hg]; [destruct (ps_undo p); [|contradiction]; destruct Hg as [<-|[]]; discriminate U|].
    assert (Later : In f (number_from prefix (Datatypes.S n) l)).
    { destruct Hf as [Hf|Hf]; [|apply in_app_or in Hf; destruct Hf as [Hf|Hf]; [|exact Hf]].
      all: exfalso; destruct (undo_shape _ _ _ _ P F Hg U) as (m & x & L & E); destruct Fp as ((r & Br & _) & _).
      - subst f. cbn [fl_name] in N. rewrite E, Br, <- !app_assoc in N. apply (same_number prefix n m (r ++ ps_ext p) x) in N. lia.
      - destruct (ps_undo p); [|contradiction]. destruct Hf as [<-|[]]. cbn [fl_name] in N. rewrite E, Br, <- !app_assoc in N.
        apply (same_number prefix n m (r ++ B".undo.sql") x) in N. lia. }
    destruct (IH _ _ _ P F Hg Later U N) as (a & b & E & V). 
    match goal with |- context [?x :: ?u ++ _] => exists (x :: u ++ a), b end. split; [|auto]. cbn [app]. f_equal. rewrite E. apply app_assoc.
Qed.

Lemma sqlite_files : forall flt prefix src dest drop files ws, results SQLite flt prefix src dest drop = Ok (files, ws) ->
  files = [] \/ exists l, files = [File (prefix ++ B".sql") false l].
Proof. intros flt prefix src dest drop files ws H. cbn [results] in H. invert_binds H. injection H as <- _. destruct (none _); eauto. Qed.
Definition ordinary (d : dialect) (src dest : catalog) : Prop :=
  unique_tables (ct_schemas src) /\ unique_tables (ct_schemas dest) /\ readable_types d (ct_schemas src) /\ readable_types d (ct_schemas dest)
  /\ plain_names (ct_schemas src) /\ plain_names (ct_schemas dest) /\ plain (ct_current src).
Lemma steps_or_sqlite : forall d flt prefix src dest drop files ws, ordinary d src dest -> results d flt prefix src dest drop = Ok (files, ws) ->
  files = [] \/ (exists l, files = [File (prefix ++ B".sql") false l]) \/ exists l, files = number prefix l /\ Forall plain_step l.
Proof.
  intros d flt prefix src dest drop files ws (U1 & U2 & R1 & R2 & P1 & P2 & P3) H. destruct d; try discriminate H.
  1: destruct (sqlite_files _ _ _ _ _ _ _ H); auto.
  all: right; right; eapply plain_steps in H; try reflexivity; try eassumption.
Qed.
(** migrate runs the generated files in the order in which they were generated, and no undo file. *)
Theorem generated_files_run : forall d flt prefix src dest drop files ws,
  ordinary d src dest -> plain prefix -> prefix <> B"schema" -> prefix <> B"indexes" -> prefix <> B"constraints" ->
  results d flt prefix src dest drop = Ok (files, ws) ->
  NoDup (map fl_name files) /\ sort_and_filter (map fl_name files) = map fl_name (filter (fun f => negb (fl_undo f)) files).
Proof.
  intros d flt prefix src dest drop files ws O P N1 N2 N3 H. destruct (steps_or_sqlite _ _ _ _ _ _ _ _ O H) as [->|[(l & ->)|(l & -> & F)]].
  - split; [constructor|reflexivity].
  - split; [constructor; [intros []|constructor]|]. cbn [map filter fl_undo negb fl_name]. unfold sort_and_filter. cbn [sort_and_filter_loop].
    rewrite not_skipped by auto. rewrite plain_not_repeatable; [reflexivity|]. intro I. apply in_app_or in I. destruct I as [I|I]; [exact (proj2 P I)|cbn in I; intuition discriminate].
  - split; [apply number_distinct; exact F|]. unfold sort_and_filter.
    rewrite filter_plain_loop by (intros f Hf; apply plain_not_repeatable; exact (number_slashes _ _ _ _ P F Hf)).
    rewrite app_nil_r. apply number_run; assumption.
Qed.
(** For every undo file migrate finds it after a failure of the file before it, and of no other. *)
Theorem undo_files_found : forall d flt prefix src dest drop files ws,
  ordinary d src dest -> plain prefix -> results d flt prefix src dest drop = Ok (files, ws) ->
  (forall u, In u files -> fl_undo u = true ->
     exists a f b, files = a ++ f :: u :: b /\ fl_undo f = false /\ fl_name u = undo_name (fl_name f))
  /\ (forall f u, In f files -> In u files -> fl_undo f = false -> fl_name u = undo_name (fl_name f) ->
     fl_undo u = true /\ exists a b, files = a ++ f :: u :: b).
Proof.
  intros d flt prefix src dest drop files ws O P H. destruct (steps_or_sqlite _ _ _ _ _ _ _ _ O H) as [->|[(l & ->)|(l & -> & F)]].
  - split; [intros u []|intros f u []].
  - split; [intros u [<-|[]] U; discriminate U|]. intros f u [<-|[]] [<-|[]] _ N. exfalso. cbn [fl_name] in N.
    rewrite undo_name_plain in N by auto. apply app_inv_head in N. discriminate N.
  - split; [intros u Hu U; exact (number_undo _ _ _ _ P F Hu U)|]. intros f u Hf Hu U N.
    destruct (number_finds_undo _ _ _ _ _ P F Hf Hu U N) as (a & b & E & V). eauto.
Qed.
