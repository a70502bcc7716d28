(** Migrations between orderly catalogs are always generated. *)
From Verif Require Import GoStr ModelCatalog ModelDdl ModelDiff ModelDiffSql SpecDiff DiffLookup DiffFacts DiffPlan DiffSegments DiffCreate
  SpecApply ApplyFacts ApplyPlan.

Lemma flatr_total : forall {A C} (f : A -> result (list C)) l, (forall a, In a l -> exists x, f a = Ok x) -> exists r, flatr f l = Ok r.
Proof.
  intros A C f l. induction l as [|a l IH]; intro H; [exists []; reflexivity|]. destruct (H a (or_introl eq_refl)) as (x & E).
  destruct IH as (r & R); [intros b Hb; apply H; right; exact Hb|]. exists (x ++ r). cbn. rewrite E. cbn. rewrite R. reflexivity.
Qed.
Definition recreates (c : change) : bool := match c with ChRecreateFkey _ => true | _ => false end.
Lemma record_total : forall d l p, (forall c, In c l -> recreates c = false) -> exists p', record_all d p l = Ok p'.
Proof.
  intros d l. induction l as [|c l IH]; intros p H; [exists p; reflexivity|]. pose proof (H c (or_introl eq_refl)) as E. cbn [record_all].
  assert (X : exists q, record_change d p c = Ok q) by (destruct p, c; try discriminate E; cbn; eauto; destruct d; eauto).
  destruct X as (q & X). rewrite X. cbn [bindr]. apply IH. intros c' Hc. apply H. right. exact Hc.
Qed.
Theorem always_generated : forall d flt prefix src dest, d = MySQL \/ d = Postgres ->
  orderly (ct_schemas src) -> orderly (ct_schemas dest) -> readable_types d (ct_schemas src) -> readable_types d (ct_schemas dest) ->
  exists files ws, results d flt prefix src dest true = Ok (files, ws).
Proof.
  intros d flt prefix src dest DD Os Od Rs Rd.
  assert (Q : sql_dialect d = true) by (destruct DD as [->| ->]; reflexivity).
  pose proof (orderly_tables _ Os) as Us. pose proof (orderly_tables _ Od) as Ud.
  pose proof (pure_changes d src dest true Q Us Ud Rs Rd) as C. set (l := all_changes _ _ _ _) in C.
  assert (NR : forall c, In c l -> recreates c = false).
  { intros c Hc. apply (changes_are _ _ Os Od) in Hc.
    destruct Hc as [(s & _ & _ & ->)|[(s & _ & _ & ->)|[(q & s & _ & _ & [(_ & ->)|(k & _ & _ & ->)])|[(q & s & _ & _ & [->|(k & _ & _ & ->)])|(q & s & t & _ & _ & Hc)]]]]; try reflexivity.
    assert (RE : forall a, In c (recorded a) -> recreates c = false) by (intros a Ha; unfold recorded in Ha; destruct (_ && _) in Ha; [contradiction|destruct Ha as [<-|[]]; reflexivity]).
    destruct DD as [D|D]; rewrite D in Hc; cbn [pure_alter] in Hc; [unfold mysql_changes in Hc|unfold postgres_changes in Hc]; rewrite !in_app_iff, !in_map_iff in Hc;
      destruct Hc as [(k & <- & _)|[(k & <- & _)|Hc]]; try reflexivity; exact (RE _ Hc). }
  destruct (record_total d l empty_plan NR) as (p & R). destruct (record_lists _ _ _ _ R) as (_ & _ & _ & _ & L5 & _). cbn [pl_alters empty_plan app] in L5.
  assert (AL : forall a c1 c2, In a (pl_alters p) -> In (c1, c2) (al_alter_columns a) ->
    exists x1 x2, normalize_column_type d (col_type c1) = Ok x1 /\ normalize_column_type d (col_type c2) = Ok x2).
  { intros a c1 c2 Ha Hp. rewrite L5 in Ha. unfold l in Ha. rewrite (alters_origin d src true _ _ Q Us Ud) in Ha. apply in_flat_map in Ha. destruct Ha as ((s & t) & Hst & Ha).
    apply (old_tables_are _ _ Os Od s t) in Hst. destruct Hst as (Ls & Lt).
    unfold recorded in Ha. destruct (_ && _) in Ha; [contradiction|]. cbn [flat_map ch_alter app] in Ha. destruct Ha as [<-|[]].
    assert (X : In (c1, c2) (altered d (ct_collation src) s t)) by (destruct DD as [D|D]; rewrite D in Hp |- *; exact Hp).
    unfold altered in X. apply filter_In in X. destruct X as (X & _). apply (pairs_cols_in _ _ _ _ _ _ _ Os Od Ls Lt) in X. destruct X as (X1 & X2). apply called_some in X2.
    destruct Ls as (ss & S1 & S2 & _), Lt as (ds & T1 & T2 & _). destruct (Rs ss s c1 S1 S2 (proj1 X2)) as (x1 & E1). destruct (Rd ds t c2 T1 T2 X1) as (x2 & E2). eauto. }
  destruct DD as [D|D]; rewrite D in *; cbn [results].
  - unfold new_mysql_migration. cbn [code_alter] in C. rewrite C. cbn [bindr]. rewrite R. cbn [bindr].
    destruct (flatr_total (fun a => flatr (fun '(c, d0) => warn_mysql (qualify (ct_current src) (al_schema a) (al_table a)) c d0) (al_alter_columns a)) (pl_alters p)) as (ws & W).
    { intros a Ha. apply flatr_total. intros (c1 & c2) Hp. destruct (AL a c1 c2 Ha Hp) as (((? & ?) & ?) & ((? & ?) & ?) & E1 & E2). unfold warn_mysql. rewrite E1. cbn [bindr]. rewrite E2. eexists. reflexivity. }
    unfold mysql_warnings. rewrite W. cbn [bindr]. eauto.
  - unfold new_postgres_migration. cbn [code_alter] in C. rewrite C. cbn [bindr]. rewrite R. cbn [bindr].
    destruct (flatr_total (fun a => bindr (alter_steps_postgres flt src a) (fun r => Ok [r])) (pl_alters p)) as (rs & W).
    { intros a Ha. unfold alter_steps_postgres.
      destruct (flatr_total (fun '(c, d0) => bindr (alter_column_postgres flt src (qualify (ct_current src) (al_schema a) (al_table a)) c d0) (fun r => Ok [r])) (al_alter_columns a)) as (r & E).
      { intros (c1 & c2) Hp. destruct (AL a c1 c2 Ha Hp) as (x1 & x2 & E1 & E2). unfold alter_column_postgres. rewrite E1. cbn [bindr]. rewrite E2. cbn [bindr].
        repeat match goal with |- context [if ?b then _ else _] => destruct b end; eexists; reflexivity. }
      rewrite E. eexists. reflexivity. }
    unfold postgres_steps. rewrite W. cbn [bindr]. eauto.
Qed.
