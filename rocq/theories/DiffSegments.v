(** The statements of a generated migration in the order in which they are run. *)
From Coq Require Import Lia Permutation.
From Verif Require Import GoStr GoStrFacts ModelCatalog ModelCache CacheFacts ModelDdl ModelDiff ModelDiffSql SpecDiff DiffLookup DiffFacts DiffSelf DiffPlan.

Ltac invert_binds H :=
  repeat (apply bindr_inv in H; let x := fresh "x" in let E := fresh "E" in destruct H as (x & E & H)).

Definition drop_key_stmts (d : dialect) (cur : bytes) (l : list constraint) : list stmt :=
  match d with
  | Postgres => map (QDropConstraint (group_at cur l)) l
  | _ => map (fun c => QDropConstraint (at_owner cur c) c) l
  end.
Definition schema_stmts (d : dialect) (cur : bytes) (p : plan) : list stmt :=
  match d with
  | SQLServer => flat_map (drop_schema_stmts cur) (pl_drop_schemas p)
  | _ => map (fun s => QDropSchema (sc_name s)) (pl_drop_schemas p)
  end ++ map QCreateSchema (pl_create_schemas p).
Definition table_stmts (cur : bytes) (p : plan) : list stmt :=
  map (fun t => QDropTable (at_table cur t)) (pl_drop_tables p) ++ flat_map (create_with_indexes cur) (pl_create_tables p).
Definition alter_code (d : dialect) (flt : bytes -> bool) (cat : catalog) (a : alter) : result (list stmt) :=
  match d with
  | MySQL => Ok (alter_stmts_mysql (ct_current cat) a)
  | Postgres => bindr (alter_steps_postgres flt cat a) (fun r => Ok (flat_map ps_stmts (fst r)))
  | _ => bindr (alter_steps_sqlserver cat a) (fun r => Ok (flat_map ps_stmts (fst r)))
  end.
Definition fast_key_stmts (d : dialect) (cur : bytes) (l : list constraint) : list stmt :=
  match d with
  | MySQL => []
  | Postgres => map (fun c => QAddConstraint (group_at cur l) c false) l
  | _ => map (fun c => QAddConstraint (at_owner cur c) c false) l
  end.
Definition add_key_stmts (d : dialect) (cur : bytes) (l : list constraint) : list stmt :=
  match d with
  | Postgres => map (fun c => QAddConstraint (group_at cur l) c true) l ++ map (fun c => QValidate (group_at cur l) (con_name c)) l
  | _ => map (fun c => QAddConstraint (at_owner cur c) c false) l
  end.
Definition drops_part (d : dialect) (cur : bytes) (p : plan) : list stmt :=
  flat_map (drop_key_stmts d cur) (gr_list (pl_drop_fkeys p)).
Definition adds_part (d : dialect) (cur : bytes) (p : plan) : list stmt :=
  flat_map (fast_key_stmts d cur) (gr_list (pl_fast_fkeys p)) ++ flat_map (add_key_stmts d cur) (gr_list (pl_add_fkeys p)).

Lemma flat_map_map : forall {A C D} (f : C -> list D) (g : A -> C) l, flat_map f (map g l) = flat_map (fun a => f (g a)) l.
Proof. intros A C D f g l. induction l as [|a l IH]; cbn; [reflexivity|]. rewrite IH. reflexivity. Qed.
Lemma flat_map_one : forall {A C} (f : A -> C) l, flat_map (fun a => [f a]) l = map f l.
Proof. intros A C f l. induction l as [|a l IH]; cbn; [reflexivity|]. rewrite IH. reflexivity. Qed.
Lemma flat_map_flat_map : forall {A C D} (f : C -> list D) (g : A -> list C) l,
  flat_map f (flat_map g l) = flat_map (fun a => flat_map f (g a)) l.
Proof. intros A C D f g l. induction l as [|a l IH]; cbn; [reflexivity|]. rewrite flat_map_app, IH. reflexivity. Qed.
Lemma map_concat : forall {A C} (f : A -> C) l, map f (concat l) = flat_map (map f) l.
Proof. intros A C f l. induction l as [|a l IH]; cbn; [reflexivity|]. rewrite map_app, IH. reflexivity. Qed.
Lemma flat_map_nil : forall {A C} (l : list A), flat_map (fun _ => @nil C) l = [].
Proof. intros A C l. induction l as [|a l IH]; [reflexivity|exact IH]. Qed.

Lemma step_if_stmts : forall b p, (b = false -> ps_stmts p = []) -> flat_map ps_stmts (step_if b p) = ps_stmts p.
Proof. intros [|] p H; cbn; [apply app_nil_r|]. symmetry. auto. Qed.
Lemma in_file_stmts : forall {A} (l : list A) p, (l = [] -> ps_stmts p = []) -> flat_map ps_stmts (in_file l p) = ps_stmts p.
Proof. intros A [|a l] p H; cbn; [symmetry; auto|apply app_nil_r]. Qed.
Lemma both_none : forall {A C} (l : list A) (m : list C), negb (none l) || negb (none m) = false -> l = [] /\ m = [].
Proof. intros A C [|a l] [|b m] H; try discriminate. auto. Qed.
Lemma flatr_single : forall {A C D} (f : A -> result C) (g : C -> list D) l r,
  flatr (fun a => bindr (f a) (fun x => Ok [x])) l = Ok r ->
  flatr (fun a => bindr (f a) (fun x => Ok (g x))) l = Ok (flat_map g r).
Proof.
  intros A C D f g l. induction l as [|a l IH]; intros r H; cbn [flatr] in *.
  - injection H as <-. reflexivity.
  - invert_binds H. injection H as <-. invert_binds E. injection E as <-. rewrite E1. cbn [bindr]. rewrite (IH _ E0). reflexivity.
Qed.
Lemma flatr_pure : forall {A C} (f : A -> list C) l, flatr (fun a => Ok (f a)) l = Ok (flat_map f l).
Proof. intros A C f l. apply flatr_ok. reflexivity. Qed.

(** All statements of a migration. *)
Theorem segments : forall d flt prefix src dest drop files ws, sql_dialect d = true ->
  results d flt prefix src dest drop = Ok (files, ws) ->
  exists l p alts,
    changes (code_alter d) src dest drop = Ok l /\ record_all d empty_plan l = Ok p
    /\ flatr (alter_code d flt src) (pl_alters p) = Ok alts
    /\ forward files = drops_part d (ct_current src) p ++ schema_stmts d (ct_current src) p ++ table_stmts (ct_current src) p
         ++ alts ++ adds_part d (ct_current src) p.
Proof.
  intros d flt prefix src dest drop files ws Q H. destruct d; try discriminate Q; cbn [results] in H.
  - unfold new_postgres_migration in H. invert_binds H. destruct x0 as [steps w]. injection H as <- <-.
    unfold postgres_steps in E0. invert_binds E0. injection E0 as <- <-. invert_binds E.
    exists x1, x, (flat_map ps_stmts (flat_map fst x0)). split; [exact E0|]. split; [exact E|]. split.
    + rewrite flat_map_flat_map. exact (flatr_single _ (fun r => flat_map ps_stmts (fst r)) _ _ E1).
    + rewrite forward_number, !flat_map_app, !flat_map_map. cbn [ps_stmts].
      rewrite !step_if_stmts; cbn [ps_stmts].
      * rewrite (flat_map_flat_map ps_stmts (fun l : list constraint => [Step _ _ _ _; Step _ _ _ _])). cbn [flat_map ps_stmts].
        unfold drops_part, adds_part, schema_stmts, table_stmts. cbn [drop_key_stmts fast_key_stmts add_key_stmts].
        rewrite <- !app_assoc.
        repeat match goal with |- ?a ++ _ = _ ++ _ => apply (f_equal (app a)) end.
        apply flat_map_ext. intro l. rewrite app_nil_r. reflexivity.
      * intro Z. apply both_none in Z. destruct Z as (-> & ->). reflexivity.
      * intro Z. apply both_none in Z. destruct Z as (-> & ->). reflexivity.
  - unfold new_mysql_migration in H. invert_binds H. injection H as <- <-. invert_binds E.
    exists x1, x, (flat_map (alter_stmts_mysql (ct_current src)) (pl_alters x)). split; [exact E1|]. split; [exact E|]. split.
    + cbn [alter_code]. apply flatr_pure.
    + rewrite forward_number. unfold mysql_steps. rewrite !flat_map_app, !flat_map_map. cbn [ps_stmts].
      rewrite !step_if_stmts; cbn [ps_stmts].
      * unfold drops_part, adds_part, schema_stmts, table_stmts. cbn [drop_key_stmts fast_key_stmts add_key_stmts].
        rewrite !flat_map_one, !map_concat.
        replace (flat_map (fast_key_stmts MySQL (ct_current src)) (gr_list (pl_fast_fkeys x))) with (@nil stmt)
          by (symmetry; apply flat_map_nil).
        rewrite <- !app_assoc. reflexivity.
      * intro Z. apply both_none in Z. destruct Z as (-> & ->). reflexivity.
      * intro Z. apply both_none in Z. destruct Z as (-> & ->). reflexivity.
  - unfold new_sqlserver_migration in H. invert_binds H. destruct x0 as [steps w]. injection H as <- <-.
    unfold sqlserver_steps in E0. invert_binds E0. injection E0 as <- <-. invert_binds E.
    exists x1, x, (flat_map ps_stmts (flat_map fst x0)). split; [exact E0|]. split; [exact E|]. split.
    + rewrite flat_map_flat_map. exact (flatr_single _ (fun r => flat_map ps_stmts (fst r)) _ _ E1).
    + rewrite forward_number, !flat_map_app, !flat_map_map. cbn [ps_stmts].
      rewrite step_if_stmts, in_file_stmts; cbn [ps_stmts].
      * unfold drops_part, adds_part, schema_stmts, table_stmts. cbn [drop_key_stmts fast_key_stmts add_key_stmts].
        rewrite <- !app_assoc. reflexivity.
      * intros ->. reflexivity.
      * intro Z. apply both_none in Z. destruct Z as (-> & ->). reflexivity.
Qed.

(** ** Statements that come from an altered table *)
Definition alter_column_stmt (s : stmt) : bool :=
  match s with
  | QSetType _ _ _ _ _ | QSetDefault _ _ _ | QDropDefault _ _ | QSetNotNull _ _ | QDropNotNull _ _
  | QAddIdentity _ _ _ | QDropIdentity _ _ | QAddCheck _ _ _ => true
  | _ => false
  end.
Ltac one_of H :=
  match type of H with
  | In _ (_ ++ _) => apply in_app_or in H; destruct H as [H|H]; one_of H
  | In _ (if ?b then _ else _) => destruct b; one_of H
  | In _ [] => contradiction
  | In _ (_ :: _) => destruct H as [H|H]; [rewrite <- H; reflexivity|one_of H]
  end.
Lemma alter_column_postgres_stmts : forall flt cat t a b l w, alter_column_postgres flt cat t a b = Ok (l, w) ->
  forall s, In s l -> alter_column_stmt s = true.
Proof.
  intros flt cat t a b l w H s Hs. unfold alter_column_postgres in H. invert_binds H.
  repeat match type of H with
  | context [let '(_, _) := if ?b then _ else _ in _] => destruct b
  | context [let '(_, _) := (_, _) in _] => cbv beta iota in H
  end.
  all: injection H as <- <-; one_of Hs.
Qed.
Lemma alter_column_sqlserver_stmts : forall cat k t a b l w, alter_column_sqlserver cat k t a b = Ok (l, w) ->
  forall s, In s l -> alter_column_stmt s = true.
Proof.
  intros cat k t a b l w H s Hs. unfold alter_column_sqlserver in H. invert_binds H.
  injection H as <- <-. one_of Hs.
Qed.

Lemma in_singles : forall {A C} (f : A -> result C) l r x,
  flatr (fun a => bindr (f a) (fun x => Ok [x])) l = Ok r -> In x r -> exists a, In a l /\ f a = Ok x.
Proof.
  intros A C f l r x H Hx. apply (flatr_inv _ _ _ H) in Hx. destruct Hx as (a & y & Ha & F & Hx).
  apply bindr_inv in F. destruct F as (z & Z & F). injection F as <-. destruct Hx as [<-|[]]. exists a. auto.
Qed.
Lemma columns_postgres : forall flt cat t l rs,
  flatr (fun '(c, d) => bindr (alter_column_postgres flt cat t c d) (fun r => Ok [r])) l = Ok rs ->
  forall s, In s (flat_map fst rs) -> alter_column_stmt s = true.
Proof.
  intros flt cat t l rs H s Hs. apply in_flat_map in Hs. destruct Hs as ((st & w) & Hr & Hs).
  apply (flatr_inv _ _ _ H) in Hr. destruct Hr as ((a & b) & y & Hab & F & Hy).
  apply bindr_inv in F. destruct F as (z & Z & F). injection F as <-. destruct Hy as [->|[]].
  eapply alter_column_postgres_stmts; eassumption.
Qed.
Lemma columns_sqlserver : forall cat k t l rs,
  flatr (fun '(c, d) => bindr (alter_column_sqlserver cat k t c d) (fun r => Ok [r])) l = Ok rs ->
  forall s, In s (flat_map fst rs) -> alter_column_stmt s = true.
Proof.
  intros cat k t l rs H s Hs. apply in_flat_map in Hs. destruct Hs as ((st & w) & Hr & Hs).
  apply (flatr_inv _ _ _ H) in Hr. destruct Hr as ((a & b) & y & Hab & F & Hy).
  apply bindr_inv in F. destruct F as (z & Z & F). injection F as <-. destruct Hy as [->|[]].
  eapply alter_column_sqlserver_stmts; eassumption.
Qed.

Definition alter_at (cat : catalog) (a : alter) : qname := qualify (ct_current cat) (al_schema a) (al_table a).
Definition dropped_at (d : dialect) (cat : catalog) (a : alter) (x : index) : qname :=
  match d with
  | MySQL => alter_at cat a
  | Postgres => (fst (qualify (ct_current cat) (ix_schema x) []), al_table a)
  | _ => qualify (ct_current cat) (ix_schema x) (ix_table x)
  end.
Definition created_at (d : dialect) (cat : catalog) (a : alter) (x : index) : qname :=
  match d with
  | MySQL => alter_at cat a
  | _ => qualify (ct_current cat) (ix_schema x) (ix_table x)
  end.
(** The statements of an altered table: first those that drop something. *)
Definition alter_first (d : dialect) (cat : catalog) (a : alter) : list stmt :=
  let t := alter_at cat a in
  let ixs := map (fun x => QDropIndex (dropped_at d cat a x) (ix_name x)) (al_drop_indexes a) in
  let cons := map (QDropConstraint t) (al_drop_constraints a) in
  match d with MySQL => cons ++ ixs | _ => ixs ++ cons end ++ map (fun c => QDropColumn t (col_name c)) (al_drop_columns a).
Definition adds_keys (d : dialect) (cat : catalog) (a : alter) (c : constraint) : list stmt :=
  match d with
  | Postgres => [QCreateIndex (at_owner (ct_current cat) c) (key_index c) true; QAddUsingIndex (alter_at cat a) c]
  | _ => [QAddConstraint (alter_at cat a) c false]
  end.
Lemma alter_code_ok : forall d flt cat a l, sql_dialect d = true -> alter_code d flt cat a = Ok l ->
  exists mid, l = alter_first d cat a ++ map (QAddColumn (alter_at cat a)) (al_add_columns a) ++ mid
    ++ map (fun x => QCreateIndex (created_at d cat a x) x (match d with Postgres => true | _ => false end)) (al_create_indexes a)
    ++ flat_map (adds_keys d cat a) (al_add_constraints a)
  /\ (forall s, In s mid -> alter_column_stmt s = true \/ (exists t c, s = QAlterConstraint t c) \/ (exists t n, s = QValidate t n)
       \/ (exists t n, s = QDropCheck t n) \/ exists t c, s = QModifyColumn t c).
Proof.
  intros d flt cat a l Q H. destruct d; try discriminate Q; cbn [alter_code] in H.
  - invert_binds H. injection H as <-. unfold alter_steps_postgres in E. invert_binds E. injection E as <-.
    pose proof (columns_postgres _ _ _ _ _ E0) as CS. clear E0.
    cbn [fst flat_map ps_stmts]. rewrite !flat_map_app, flat_map_map, in_file_stmts by (intros ->; reflexivity).
    rewrite (flat_map_flat_map ps_stmts (fun c : constraint => [Step _ _ _ _; Step _ _ _ _])). cbn [flat_map ps_stmts app].
    rewrite flat_map_one.
    exists (flat_map fst x0 ++ map (fun p => QAlterConstraint (alter_at cat a) (snd p)) (al_alter_constraints a)
      ++ flat_map (fun c => [QValidate (alter_at cat a) (check_name c); QSetNotNull (alter_at cat a) (col_name c);
                             QDropCheck (alter_at cat a) (check_name c)]) (al_validate a)). split.
    + unfold alter_first. rewrite <- !app_assoc. reflexivity.
    + intros s Hs. apply in_app_or in Hs. destruct Hs as [Hs|Hs]; [|apply in_app_or in Hs; destruct Hs as [Hs|Hs]].
      * left. exact (CS s Hs).
      * apply in_map_iff in Hs. destruct Hs as (y & <- & Hy). right. left. eauto.
      * apply in_flat_map in Hs. destruct Hs as (y & Hy & [<-|[<-|[<-|[]]]]); eauto 8.
  - injection H as <-. unfold alter_stmts_mysql, alter_first.
    exists (map (fun p => QModifyColumn (alter_at cat a) (snd p)) (al_alter_columns a)). split.
    + rewrite <- !app_assoc, <- (flat_map_one (fun c => QAddConstraint _ c false)). reflexivity.
    + intros s Hs. apply in_map_iff in Hs. destruct Hs as (y & <- & Hy). eauto 8.
  - invert_binds H. injection H as <-. unfold alter_steps_sqlserver in E. invert_binds E. injection E as <-.
    pose proof (columns_sqlserver _ _ _ _ _ E0) as CS. clear E0.
    cbn [fst flat_map ps_stmts]. rewrite !flat_map_app, !flat_map_map. cbn [ps_stmts]. rewrite !flat_map_one.
    exists (flat_map fst x0). split.
    + unfold alter_first. rewrite <- !app_assoc, <- (flat_map_one (fun c => QAddConstraint _ c false)). reflexivity.
    + intros s Hs. left. exact (CS s Hs).
Qed.
