(** The files of a migration are read as their statements are meant. *)
From Verif Require Import GoStr GoStrFacts ModelSq SpecSql SpecInsert SpecTokens SpecDdl ModelCatalog ModelCache ModelDdl ModelDiff ModelDiffSql ModelDdlText SpecDdlText DdlTokens DdlActions DdlStatements DiffLookup DiffPlan.
From Coq Require Import ZifyBool ZifyNat.

(** ** ALTER TABLE of MySQL always has a part *)
Lemma recorded_some a b : In (ChAlterTable b) (recorded a) -> b = a /\ ~ (al_drop_constraints a = [] /\ al_drop_indexes a = [] /\ al_add_columns a = [] /\ al_alter_columns a = [] /\ al_alter_constraints a = [] /\ al_create_indexes a = [] /\ al_add_constraints a = []).
Proof.
  unfold recorded. match goal with |- In _ (if ?c then _ else _) -> _ => destruct c eqn:E end; [intros []|]. intros [[= <-]|[]]. split; [reflexivity|]. intros (E1 & E2 & E3 & E4 & E5 & E6 & E7). rewrite E1, E2, E3, E4, E5, E6, E7 in E. discriminate E.
Qed.
Lemma in_maps {A} (f : A -> change) l a : In (ChAlterTable a) (map f l) -> (forall x, f x <> ChAlterTable a) -> False.
Proof. intros I N. apply in_map_iff in I as (x & E & _). exact (N x E). Qed.
Lemma alter_mysql_some cat drop sc dc s d l a : alter_mysql cat drop sc dc s d = Ok l -> In (ChAlterTable a) l -> alter_stmts_mysql (ct_current cat) a <> [].
Proof.
  intros H I. unfold alter_mysql in H. repeat (apply bindr_inv in H as (? & _ & H)). injection H as <-. apply in_app_or in I as [I|I]; [exfalso; exact (in_maps _ _ _ I ltac:(discriminate))|]. apply in_app_or in I as [I|I]; [exfalso; exact (in_maps _ _ _ I ltac:(discriminate))|].
  apply recorded_some in I as [-> N]. intros E. apply N. clear N. unfold alter_stmts_mysql in E. cbn [al_drop_constraints al_drop_indexes al_add_columns al_alter_columns al_alter_constraints al_create_indexes al_add_constraints al_drop_columns al_schema al_table] in *.
  repeat (apply app_eq_nil in E as [? E]). repeat match goal with H : map _ _ = [] |- _ => apply map_eq_nil in H end. repeat split; assumption.
Qed.
Lemma mysql_alters src dest drop p a : new_mysql_migration src dest drop = Ok p -> In a (pl_alters p) -> alter_stmts_mysql (ct_current src) a <> [].
Proof.
  intros H I. apply bindr_inv in H as (l & H & R). destruct (record_lists _ _ _ _ R) as (_ & _ & _ & _ & E & _). rewrite E in I. cbn [empty_plan pl_alters app] in I. apply in_flat_map in I as (c & Ic & Ia).
  destruct c; cbn [ch_alter] in Ia; try destruct Ia as []; try contradiction. subst.
  unfold changes in H. apply bindr_inv in H as (l1 & H1 & H). apply bindr_inv in H as (l2 & H2 & H). injection H as <-. apply in_app_or in Ic as [Ic|Ic].
  - exfalso. unfold when in H1. destruct drop; [|injection H1 as <-; destruct Ic]. apply (flatr_inv _ _ _ H1) in Ic as (s & x & _ & Hs & Ix). unfold drop_schema in Hs. destruct (sc_ignore s); [injection Hs as <-; destruct Ix|]. apply bindr_inv in Hs as (o & _ & Hs). destruct o; [injection Hs as <-; destruct Ix|]. apply bindr_inv in Hs as (l & Hl & Hs). injection Hs as <-.
    apply in_app_or in Ix as [Ix|Ix]; [destruct (is_empty (sc_name s)); [destruct Ix|destruct Ix as [Ix|[]]; discriminate Ix]|].
    apply (flatr_inv _ _ _ Hl) in Ix as (t & y & _ & Ht & Iy). destruct (tb_ignore t); [injection Ht as <-; destruct Iy|]. unfold keys_of in Ht. apply bindr_inv in Ht as (ks & _ & Ht). injection Ht as <-. exact (in_maps _ _ _ Iy ltac:(discriminate)).
  - assert (Ct : forall st t l c, create_table st t = Ok l -> In (ChAlterTable c) l -> False).
    { clear. intros st t l c H I. unfold create_table, keys_of in H. apply bindr_inv in H as (x & Hx & H). apply bindr_inv in Hx as (ks & _ & Hx). injection Hx as <-. injection H as <-. destruct I as [I|I]; [discriminate I|]. exact (in_maps _ _ _ I ltac:(discriminate)). }
    apply (flatr_inv _ _ _ H2) in Ic as (s & x & _ & Hs & Ix). unfold change_schema in Hs. destruct (sc_ignore s); [injection Hs as <-; destruct Ix|]. apply bindr_inv in Hs as (o & _ & Hs). destruct o as [ss|].
    + apply bindr_inv in Hs as (l1' & Hd & Hs). apply bindr_inv in Hs as (l2' & Hc & Hs). injection Hs as <-. apply in_app_or in Ix as [Ix|Ix].
      * exfalso. unfold when in Hd. destruct drop; [|injection Hd as <-; destruct Ix]. apply (flatr_inv _ _ _ Hd) in Ix as (t & y & _ & Ht & Iy). destruct (tb_ignore t); [injection Ht as <-; destruct Iy|]. apply bindr_inv in Ht as (o & _ & Ht). destruct o; [injection Ht as <-; destruct Iy|]. apply bindr_inv in Ht as (ks & Hk & Ht). injection Ht as <-. destruct Iy as [Iy|Iy]; [discriminate Iy|]. unfold keys_of in Hk. apply bindr_inv in Hk as (ks' & _ & Hk). injection Hk as <-. exact (in_maps _ _ _ Iy ltac:(discriminate)).
      * apply (flatr_inv _ _ _ Hc) in Ix as (t & y & _ & Ht & Iy). unfold change_table in Ht. destruct (tb_ignore t); [injection Ht as <-; destruct Iy|]. apply bindr_inv in Ht as (o & _ & Ht). destruct o as [s'|]; [exact (alter_mysql_some _ _ _ _ _ _ _ _ Ht Iy)|]. exfalso. exact (Ct _ _ _ _ Ht Iy).
    + exfalso. apply bindr_inv in Hs as (l & Hl & Hs). injection Hs as <-. apply in_app_or in Ix as [Ix|Ix]; [destruct (is_empty (sc_name s)); [destruct Ix|destruct Ix as [Ix|[]]; discriminate Ix]|].
      apply (flatr_inv _ _ _ Hl) in Ix as (t & y & _ & Ht & Iy). destruct (tb_ignore t); [injection Ht as <-; destruct Iy|]. exact (Ct _ _ _ _ Ht Iy).
Qed.

(** ** Files *)
Lemma written_as d cur coll ref l : d <> Other -> (forall s, In s l -> writable d cur coll ref s /\ standalone d s) -> read_as_meant d cur coll ref l (write_stmts d cur coll ref l).
Proof. intros D H. destruct (written d cur coll ref l D H) as (sts & M & S). exists sts, sts. repeat split; assumption. Qed.
Section Number.
Context (d : dialect) (cur coll : bytes) (ref : column -> reference).
Definition stepped (p : step) : Prop :=
  ((forall s, In s (ps_stmts p) -> writable d cur coll ref s) -> read_as_meant d cur coll ref (ps_stmts p) (write_step d cur coll ref p))
  /\ forall u, ps_undo p = Some u -> (forall s, In s u -> writable d cur coll ref s) -> read_as_meant d cur coll ref u (write_stmts d cur coll ref u).
Lemma texts_number prefix n l : (forall p, In p l -> stepped p) -> (forall f, In f (number_from prefix n l) -> forall s, In s (fl_stmts f) -> writable d cur coll ref s) ->
  Forall2 (file_as d cur coll ref) (number_from prefix n l) (texts_from d cur coll ref prefix n l).
Proof.
  revert n. induction l as [|p l IH]; intros n H W; [constructor|]. cbn [number_from texts_from] in W |- *. destruct (H p (or_introl eq_refl)) as [Hs Hu]. constructor.
  - split; [reflexivity|]. split; [reflexivity|]. apply Hs. exact (W _ (or_introl eq_refl)).
  - destruct (ps_undo p) as [u|].
    + constructor.
      * split; [reflexivity|]. split; [reflexivity|]. apply (Hu u eq_refl). exact (W _ (or_intror (or_introl eq_refl))).
      * apply IH; [intros x Ix; exact (H x (or_intror Ix))|]. intros f If. exact (W f (or_intror (or_intror If))).
    + apply IH; [intros x Ix; exact (H x (or_intror Ix))|]. intros f If. exact (W f (or_intror If)).
Qed.
Lemma stepped_plain p : d <> Other -> d <> MySQL -> stepped p.
Proof.
  intros D M. assert (St : forall s, standalone d s) by (intros s E; contradiction). split.
  - intros H. unfold write_step. assert (is d MySQL = false) as -> by (destruct d; try reflexivity; contradiction). cbn [andb]. apply written_as; [exact D|]. intros s I. exact (conj (H s I) (St s)).
  - intros u _ H. apply written_as; [exact D|]. intros s I. exact (conj (H s I) (St s)).
Qed.
End Number.

Lemma stepped_mysql cur coll ref p : has_prefix (ps_base p) (B"_alter_") = false -> (forall s, In s (ps_stmts p) -> standalone MySQL s) -> (forall u s, ps_undo p = Some u -> In s u -> standalone MySQL s) -> stepped MySQL cur coll ref p.
Proof.
  intros P H U. split.
  - intros W. unfold write_step. rewrite P, andb_false_r. apply written_as; [discriminate|]. intros s I. exact (conj (W s I) (H s I)).
  - intros u E W. apply written_as; [discriminate|]. intros s I. exact (conj (W s I) (U u s E I)).
Qed.
Lemma mysql_stepped src dest drop coll ref pl p : new_mysql_migration src dest drop = Ok pl -> In p (mysql_steps (ct_current src) pl) -> stepped MySQL (ct_current src) coll ref p.
Proof.
  intros H I. unfold mysql_steps in I. repeat (apply in_app_or in I as [I|I]).
  - apply in_map_iff in I as (c & <- & _). apply stepped_mysql; [reflexivity| |discriminate]. intros s [<-|[]] _. discriminate.
  - unfold step_if in I. destruct (_ || _) in I; [|destruct I]. destruct I as [<-|[]]. apply stepped_mysql; [reflexivity| |].
    + cbn [ps_stmts]. intros s Is _. apply in_app_or in Is as [Is|Is]; apply in_map_iff in Is as (x & <- & _); discriminate.
    + cbn [ps_undo]. intros u s E Is _. destruct (none _) in E; [discriminate E|]. injection E as <-. apply in_map_iff in Is as (x & <- & _). discriminate.
  - unfold step_if in I. destruct (_ || _) in I; [|destruct I]. destruct I as [<-|[]]. apply stepped_mysql; [reflexivity| |].
    + cbn [ps_stmts]. intros s Is _. apply in_app_or in Is as [Is|Is]; [apply in_map_iff in Is as (x & <- & _); discriminate|]. apply in_flat_map in Is as (t & _ & Is). unfold create_with_indexes in Is. destruct Is as [<-|Is]; [discriminate|]. apply in_map_iff in Is as (x & <- & _). discriminate.
    + cbn [ps_undo]. intros u s E Is _. destruct (none _) in E; [discriminate E|]. injection E as <-. apply in_map_iff in Is as (x & <- & _). discriminate.
  - apply in_map_iff in I as (a & <- & Ia). split; [|discriminate]. cbn [ps_stmts]. intros W. unfold write_step. cbn [ps_base ps_stmts]. change (is MySQL MySQL && has_prefix (B"_alter_" ++ table_part (ct_current src) (al_schema a) (al_table a)) (B"_alter_")) with true. cbv beta iota.
    unfold read_as_meant. apply (written_mysql (ct_current src) coll ref (qualify (ct_current src) (al_schema a) (al_table a))); [exact (mysql_alters src dest drop pl a H Ia)|].
    intros s Is. split; [|split; [exact (W s Is)|]]; unfold alter_stmts_mysql in Is; repeat (apply in_app_or in Is as [Is|Is]); apply in_map_iff in Is as (x & <- & _); (reflexivity || discriminate).
  - apply in_map_iff in I as (c & <- & _). apply stepped_mysql; [reflexivity| |discriminate]. intros s [<-|[]] _. discriminate.
Qed.

(** Every file of a migration whose statements can be written is read as they are meant. *)
Theorem results_read d flt ref prefix src dest drop fs w :
  results d flt prefix src dest drop = Ok (fs, w) -> (forall f, In f fs -> forall s, In s (fl_stmts f) -> writable d (current_of d src) (collation_of d src) ref s) ->
  exists ts, results_text d flt ref prefix src dest drop = Ok (ts, w) /\ Forall2 (file_as d (current_of d src) (collation_of d src) ref) fs ts.
Proof.
  intros H W. destruct d; cbn [current_of collation_of] in W |- *; unfold results in H; unfold results_text; cbn [current_of collation_of].
  - apply bindr_inv in H as (p & E1 & H). apply bindr_inv in H as (l & E2 & H). rewrite E1. cbn [bindr]. rewrite E2. cbn [bindr]. injection H as <- <-. eexists. split; [reflexivity|]. destruct (none l); [constructor|]. constructor; [|constructor].
    split; [reflexivity|]. split; [reflexivity|]. cbn [fl_stmts tx_text]. apply written_as; [discriminate|]. intros s I. split; [exact (W _ (or_introl eq_refl) s I)|]. intros E. discriminate E.
  - apply bindr_inv in H as (p & E1 & H). apply bindr_inv in H as ([l w'] & E2 & H). rewrite E1. cbn [bindr]. rewrite E2. cbn [bindr]. injection H as <- <-. eexists. split; [reflexivity|]. apply texts_number; [|exact W]. intros s _. apply stepped_plain; discriminate.
  - apply bindr_inv in H as (p & E1 & H). apply bindr_inv in H as (w' & E2 & H). rewrite E1. cbn [bindr]. rewrite E2. cbn [bindr]. injection H as <- <-. eexists. split; [reflexivity|]. apply texts_number; [|exact W]. intros s. exact (mysql_stepped src dest drop _ ref p s E1).
  - apply bindr_inv in H as (p & E1 & H). apply bindr_inv in H as ([l w'] & E2 & H). rewrite E1. cbn [bindr]. rewrite E2. cbn [bindr]. injection H as <- <-. eexists. split; [reflexivity|]. apply texts_number; [|exact W]. intros s _. apply stepped_plain; discriminate.
  - discriminate H.
Qed.
