(** MySQL: altering a table makes it what the destination says. *)
From Coq Require Import Lia.
From Verif Require Import GoStr GoStrFacts ModelCatalog ModelCache CacheFacts ModelDdl ModelDiff ModelDiffSql SpecDiff DiffLookup DiffFacts
  SpecApply ApplyFacts ApplyNames ApplyAlter ApplyPair.

Lemma shape_ext : forall cols cols' cons cons' ixs ixs' dt, (forall n, cols n = cols' n) -> (forall n, cons n = cons' n) -> (forall n, ixs n = ixs' n) ->
  shape cols cons ixs dt -> shape cols' cons' ixs' dt.
Proof.
  intros cols cols' cons cons' ixs ixs' dt E1 E2 E3 (S1 & S2 & S3). split; [|split]; intro n.
  - rewrite S1. apply E1.
  - rewrite S2. apply E2.
  - rewrite S3. apply E3.
Qed.

Section Mysql.
Context (cat : catalog) (cur : bytes) (src dest : list schema).
Let coll := ct_collation cat.
Hypothesis Os : orderly src.
Hypothesis Od : orderly dest.
Hypothesis PS : proper_keys src.
Hypothesis PD : proper_keys dest.
Hypothesis Zs : plain_names src.
Hypothesis Zd : plain_names dest.
Hypothesis CR : creatable MySQL cur dest.
Hypothesis SO : same_objects MySQL cur src dest.
Hypothesis KT : kept_targets cur src dest.
Hypothesis SEP : separate MySQL src dest.
Context (q : qname) (s t : table).
Hypothesis Ls : located src q s.
Hypothesis Lt : located dest q t.
Hypothesis Rs : readable MySQL s.
Hypothesis Rt : readable MySQL t.

Lemma rekeyed_spec : forall a b, In a (tb_constraints s) -> In b (tb_constraints t) -> con_name a = con_name b ->
  (rekeyed a b = false -> con_columns a = con_columns b) /\ (rekeyed a b = true -> primary b /\ con_columns a <> con_columns b).
Proof.
  intros a b Ha Hb E. unfold rekeyed. split.
  - intro R. destruct (proj1 (SO q s t Ls Lt) a b Ha Hb E) as (_ & [C|(_ & P)] & _); [exact C|].
    apply is_pkey_spec in P. rewrite P in R. cbn [andb] in R. apply negb_false_iff in R. apply beqb_eq in R.
    apply join_zero; [| |exact R]; intros n Hn.
    + exact (Zs q s a n Ls Ha Hn).
    + exact (Zd q t b n Lt Hb Hn).
  - intro R. apply andb_true_iff in R. destruct R as (P & R). split; [apply is_pkey_spec; exact P|]. intro C. rewrite C, beqb_refl in R. discriminate.
Qed.
Lemma added_mysql_in : forall b, In b (added_mysql s t) <-> In b (tb_constraints t) /\ adds s rekeyed b = true.
Proof.
  intro b. unfold added_mysql. rewrite in_flat_map. unfold adds. split.
  - intros (b' & Hb & H). destruct (con_facts _ Od _ _ _ Lt Hb) as (I & N & _). rewrite I in H.
    rewrite (find_con_called _ Os _ _ _ Ls N) in H. destruct (called con_name (tb_constraints s) (con_name b')) as [a|] eqn:E.
    + destruct (rekeyed a b') eqn:R; [|contradiction]. destruct H as [->|[]]. rewrite E. auto.
    + destruct (is_key b') eqn:K; [|contradiction]. destruct H as [->|[]]. rewrite E. auto.
  - intros (Hb & H). exists b. split; [exact Hb|]. destruct (con_facts _ Od _ _ _ Lt Hb) as (I & N & _). rewrite I.
    rewrite (find_con_called _ Os _ _ _ Ls N). destruct (called con_name (tb_constraints s) (con_name b)) as [a|].
    + rewrite H. left. reflexivity.
    + rewrite H. left. reflexivity.
Qed.
Lemma added_mysql_nodup : NoDup (map con_name (added_mysql s t)).
Proof.
  pose proof (orderly_constraints _ Od _ _ Lt) as N. unfold added_mysql. induction (tb_constraints t) as [|b l IH]; [constructor|].
  cbn [map] in N. inversion N as [|? ? N1 N2]; subst. cbn [flat_map].
  set (h := if con_ignore b then [] else _). assert (Hh : h = [] \/ h = [b]).
  { unfold h. destruct (con_ignore b); [auto|]. destruct (find_con s (con_name b)) as [a|]; [destruct (rekeyed a b)|destruct (is_key b)]; auto. }
  destruct Hh as [-> | ->]; cbn [app]; [apply IH; exact N2|]. cbn [map]. constructor; [|apply IH; exact N2].
  intro H. apply N1. apply in_map_iff in H. destruct H as (c & E & H). apply in_flat_map in H. destruct H as (c' & Hc' & H).
  assert (c = c').
  { destruct (con_ignore c'); [contradiction|]. destruct (find_con s (con_name c')) as [a|]; [destruct (rekeyed a c')|destruct (is_key c')];
      try contradiction; destruct H as [H|[]]; congruence. }
  subst c'. rewrite <- E. apply in_map. exact Hc'.
Qed.

(** The columns at the end. *)
Definition altered_cols : bytes -> option dcolumn :=
  both_cols MySQL coll (fun a b => if differs MySQL coll a b then written MySQL coll b else stored a) s t.
Lemma altered_alike : forall n b, called col_name (tb_columns t) n = Some b ->
  exists a, not_null (forced (added_mysql s t) [] n) (altered_cols n) = Some a /\ alike MySQL coll a b.
Proof.
  intros n b E. unfold altered_cols, both_cols. rewrite E. pose proof (called_some _ _ _ _ E) as (Hb & En).
  destruct (CR q t Lt) as (_ & _ & CC & _). destruct (CC b Hb) as (_ & CD & CI & CP & _). specialize (CI eq_refl).
  assert (F : forced (added_mysql s t) [] n = true -> col_notnull b = true).
  { intro Z. apply existsb_exists in Z. destruct Z as (k & Hk & Z). cbn [map] in Z. rewrite !andb_true_iff in Z. destruct Z as ((Z1 & _) & Z2).
    apply bmem_In in Z2. apply added_mysql_in in Hk. apply (proj2 (PD q t Lt) k b); [apply Hk|apply beqb_eq; exact Z1|exact Hb|]. rewrite En. exact Z2. }
  assert (W : alike_but MySQL coll (written MySQL coll b) b) by (apply alike_written; [apply Rt; exact Hb|exact CD|auto]).
  assert (G : forall c, alike_but MySQL coll c b -> dc_notnull c = col_notnull b \/ forced (added_mysql s t) [] n = true ->
    exists a, not_null (forced (added_mysql s t) [] n) (Some c) = Some a /\ alike MySQL coll a b).
  { intros c A H. destruct (forced (added_mysql s t) [] n) eqn:Z; cbn [not_null option_map].
    - exists (set_notnull true c). split; [reflexivity|]. apply alike_all; [apply alike_notnull; exact A|]. cbn. symmetry. apply F. reflexivity.
    - exists c. split; [reflexivity|]. apply alike_all; [exact A|]. destruct H as [H|H]; [exact H|discriminate]. }
  destruct (called col_name (tb_columns s) n) as [a|] eqn:Ea; [|apply G; [exact W|left; reflexivity]].
  destruct (differs MySQL coll a b) eqn:D; [apply G; [exact W|left; reflexivity]|].
  pose proof (called_some _ _ _ _ Ea) as (Ha & En').
  apply G; [apply alike_stored; [apply Rs; exact Ha|apply Rt; exact Hb|exact D]|].
  cbn [stored dc_notnull]. destruct (Bool.bool_dec (col_notnull a) (col_notnull b)) as [X|X]; [left; exact X|right].
  unfold differs in D. rewrite !orb_false_iff in D. destruct D as (((_ & D) & _) & _).
  assert (Pb : col_pkey b = true).
  { destruct (col_pkey b); [reflexivity|]. rewrite andb_true_r in D. destruct (col_notnull a), (col_notnull b); cbn in D; congruence. }
  destruct (CP Pb) as (k & Hk & Pk & Ck).
  assert (Nb : col_notnull b = true) by exact (proj2 (PD q t Lt) k b Hk Pk Hb Ck).
  apply existsb_exists. exists k. split.
  - apply added_mysql_in. split; [exact Hk|]. unfold adds. destruct (called con_name (tb_constraints s) (con_name k)) as [k'|] eqn:Ek.
    + pose proof (called_some _ _ _ _ Ek) as (Hk' & Nk'). destruct (rekeyed k' k) eqn:R; [reflexivity|]. exfalso.
      pose proof (proj1 (rekeyed_spec k' k Hk' Hk Nk') R) as C. destruct (proj1 (SO q s t Ls Lt) k' k Hk' Hk Nk') as (T & _).
      assert (Na : col_notnull a = true).
      { apply (proj2 (PS q s Ls) k' a Hk'); [unfold primary in *; congruence|exact Ha|]. rewrite C, En', <- En. exact Ck. }
      congruence.
    + apply is_key_spec. left. exact Pk.
  - cbn [map]. rewrite (proj2 (beqb_eq _ _) Pk). cbn. apply bmem_In. rewrite <- En. exact Ck.
Qed.

Theorem mysql_pair : forall x dt, steady MySQL cur src dest x -> db_tables x q = Some dt -> old_state s t dt ->
  leads MySQL cur coll src dest (alter_stmts_mysql cur (the_alter_mysql cat true s t)) q x
    (ready MySQL cur coll (fun b => called con_name (tb_constraints s) (con_name b) = None) t).
Proof.
  intros x dt J E SH. unfold alter_stmts_mysql, the_alter_mysql.
  cbn [al_schema al_table al_drop_constraints al_drop_indexes al_drop_columns al_add_columns al_alter_columns al_create_indexes al_add_constraints keep].
  set (w := qualify cur (tb_schema t) (tb_name t)).
  assert (W : place cur w = q).
  { unfold w. rewrite place_qualify; [symmetry; apply (orderly_at _ Od); exact Lt|].
    destruct (orderly_schema _ Od _ _ Lt) as (<- & Z). exact Z. }
  fold (dropped_keys s t rekeyed).
  pose proof (orderly_columns _ Os _ _ Ls) as Ncs. pose proof (orderly_columns _ Od _ _ Lt) as Nct.
  pose proof (orderly_indexes _ Os _ _ Ls) as Nis. pose proof (orderly_indexes _ Od _ _ Lt) as Nit.
  (* constraints are dropped *)
  eapply leads_app.
  { eapply leads_imp; [eapply (drop_constraints_lead MySQL cur coll src dest KT q s t Ls Lt); [exact W| | |exact J|exact E|exact SH]|].
    - exact (dropped_keys_nodup src dest Os Od q s t Ls Lt rekeyed).
    - intros c Hc. exact (dropped_keys_kept MySQL cur src dest Os Od q s t Ls Lt SO rekeyed rekeyed_spec c Hc).
    - intros dt1 _ S1. eapply shape_ext; [reflexivity|exact (dropped_keys_left src dest Os Od q s t Ls Lt rekeyed)|reflexivity|exact S1]. }
  clear x dt J E SH. intros x dt J E SH.
  (* indexes are dropped *)
  eapply leads_app.
  { eapply leads_imp; [eapply (drop_indexes_lead MySQL cur coll src dest q (only_ixs s t) (fun _ => w)); [intros; exact W| | |exact J|exact E|exact SH]|].
    - apply gone_nodup. exact Nis.
    - exact (only_ixs_dropped src dest Os Od q s t Ls Lt).
    - intros dt1 _ S1. eapply shape_ext; [reflexivity|reflexivity|exact (drop_ixs_left src dest Os Od q s t Ls Lt)|exact S1]. }
  clear x dt J E SH. intros x dt J E SH.
  (* columns are dropped *)
  eapply leads_app.
  { eapply leads_imp; [eapply (drop_columns_lead MySQL cur coll src dest Od CR q t Lt (only_cols s t) w); [exact W| | | | |exact J|exact E|exact SH]|].
    - apply gone_nodup. exact Ncs.
    - exact (only_cols_dropped src dest Os Od q s t Ls Lt).
    - exact (left_key_columns MySQL cur src dest q s t Ls Lt CR SO rekeyed rekeyed_spec).
    - exact (left_ixs_columns MySQL cur src dest q s t Ls Lt CR SO).
    - intros dt1 _ S1. eapply shape_ext; [exact (drop_cols_left src dest Os Od q s t Ls Lt)|reflexivity|reflexivity|exact S1]. }
  clear x dt J E SH. intros x dt J E SH.
  (* columns are added *)
  eapply leads_app.
  { eapply leads_imp; [eapply (add_columns_lead MySQL cur coll src dest q (only_cols t s) w); [exact W| | |exact J|exact E|exact SH]|].
    - apply gone_nodup. exact Nct.
    - exact (only_cols_added src dest Os Od q s t Ls Lt).
    - intros dt1 _ S1. eapply shape_ext; [exact (add_cols_both MySQL coll src dest Os Od q s t Ls Lt)|reflexivity|reflexivity|exact S1]. }
  clear x dt J E SH. intros x dt J E SH.
  (* columns are modified *)
  eapply leads_app.
  { eapply leads_imp; [eapply (modify_columns_lead MySQL cur coll src dest PD q t Lt (altered MySQL (ct_collation cat) s t) w); [exact W| | | |exact J|exact E|exact SH]|].
    - unfold altered. apply NoDup_filter_map. apply both_nodup. exact Nct.
    - intros (a & b) Hp. unfold altered in Hp. apply filter_In in Hp. destruct Hp as (Hp & _). apply (pairs_cols_in src dest q s t a b Os Od Ls Lt) in Hp.
      destruct Hp as (Hb & _). cbn [snd]. split; [|exact Hb]. apply both_cols_exist. apply in_map. exact Hb.
    - exact (left_primary MySQL cur src dest q s t Ls Lt SO rekeyed rekeyed_spec).
    - intros dt1 _ S1. eapply shape_ext; [exact (modified_cols MySQL coll src dest Os Od q s t Ls Lt (differs MySQL coll))|reflexivity|reflexivity|exact S1]. }
  clear x dt J E SH. intros x dt J E SH. fold altered_cols in SH.
  (* indexes are created *)
  eapply leads_app.
  { eapply leads_imp; [eapply (create_indexes_lead MySQL cur coll src dest Od CR SEP q t Lt (only_ixs t s) (fun _ => w) false); [intros; exact W| | | |exact J|exact E|exact SH]|].
    - apply gone_nodup. exact Nit.
    - exact (only_ixs_created src dest Os Od q s t Ls Lt).
    - apply both_cols_exist.
    - intros dt1 _ S1. eapply shape_ext; [reflexivity|reflexivity|exact (create_ixs_both src dest Os Od q s t Ls Lt)|exact S1]. }
  clear x dt J E SH. intros x dt J E SH.
  (* keys are added *)
  eapply leads_imp; [eapply (add_keys_lead MySQL cur coll src dest Od PD CR SEP q t Lt (added_mysql s t) w); [exact W|discriminate| | | |exact J|exact E|exact SH]|].
  - exact added_mysql_nodup.
  - intros c Hc. split.
    + exact (added_missing MySQL cur src dest Od q s t Ls Lt SO PD rekeyed rekeyed_spec _ added_mysql_in c Hc).
    + exact (added_no_index MySQL cur src dest Od q s t Ls Lt CR SO SEP PD rekeyed rekeyed_spec _ added_mysql_in c (or_introl eq_refl) Hc).
  - apply both_cols_exist.
  - intros dt1 _ S1.
    refine (pair_ready MySQL cur coll s t rekeyed (added_mysql s t) added_mysql_in
      (fun n => not_null (forced (added_mysql s t) [] n) (altered_cols n)) (fun b => b) (fun a _ => a) dt1 _ _ _ _ _ _).
    + intro b. split; [reflexivity|]. split; [reflexivity|]. split; [reflexivity|]. auto.
    + intros a b Ha Hb En R. destruct (proj1 (SO q s t Ls Lt) a b Ha Hb En) as (T & _ & F & _). split; [exact T|]. split; [|exact F].
      apply (rekeyed_spec a b Ha Hb En). exact R.
    + discriminate.
    + intros n N. unfold altered_cols, both_cols. rewrite N. destruct (forced _ _ n); reflexivity.
    + exact altered_alike.
    + eapply shape_ext; [reflexivity| |reflexivity|exact S1].
      exact (added_both_plain dest Od q s t Lt rekeyed _ added_mysql_in).
Qed.
End Mysql.
