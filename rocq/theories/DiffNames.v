(** The names of the generated files, C41. *)
From Coq Require Import Lia.
From Verif Require Import GoStr GoStrFacts ModelCatalog ModelDdl ModelDiff ModelDiffSql SpecDiff DiffSegments.

Lemma bltb_app_less : forall a b x y, List.length a = List.length b -> bltb a b = true -> bltb (a ++ x) (b ++ y) = true.
Proof.
  intro a. induction a as [|c a IH]; intros [|e b] x y L H; try discriminate. cbn [app bltb] in *.
  destruct (_ <? _); [reflexivity|]. destruct (_ <? _); [discriminate|]. apply IH; [injection L as L; exact L|exact H].
Qed.
Lemma pad2_less : forall n m, n < m < 100 -> List.length (pad2 n) = List.length (pad2 m) /\ bltb (pad2 n) (pad2 m) = true.
Proof.
  intros n m H.
  assert (C : forallb (fun m => forallb (fun n => (List.length (pad2 n) =? List.length (pad2 m)) && bltb (pad2 n) (pad2 m)) (seq 0 m)) (seq 0 100) = true)
    by (vm_compute; reflexivity).
  rewrite forallb_forall in C. specialize (C m). rewrite forallb_forall in C.
  specialize (C ltac:(apply in_seq; lia) n ltac:(apply in_seq; lia)). apply andb_true_iff in C. destruct C as (C1 & C2).
  apply Nat.eqb_eq in C1. auto.
Qed.
Definition good_ext (p : step) : Prop :=
  ps_undo p = None \/ ps_ext p = B".sql" \/ ps_ext p = B".tx.sql" \/ ps_ext p = B".txoff.sql".
Lemma number_in : forall prefix l n f, In f (number_from prefix n l) ->
  exists m r, n <= m < n + List.length l /\ fl_name f = prefix ++ B"_" ++ pad2 m ++ r.
Proof.
  intros prefix l. induction l as [|p l IH]; intros n f H; [contradiction|]. cbn [number_from List.length] in *.
  destruct H as [<-|H].
  - exists n, (ps_base p ++ ps_ext p). split; [lia|]. cbn [fl_name]. rewrite !app_assoc. reflexivity.
  - apply in_app_or in H. destruct H as [H|H].
    + destruct (ps_undo p); [|contradiction]. destruct H as [<-|[]]. exists n, (ps_base p ++ B".undo.sql"). split; [lia|].
      cbn [fl_name]. rewrite <- !app_assoc. reflexivity.
    + destruct (IH _ _ H) as (m & r & L & E). exists m, r. split; [lia|exact E].
Qed.
Lemma number_sorted : forall prefix l n, Forall good_ext l -> n + List.length l <= 100 ->
  alphabetical (map fl_name (number_from prefix n l)).
Proof.
  intros prefix l. induction l as [|p l IH]; intros n G L; [constructor|]. cbn [number_from List.length map] in *.
  pose proof (Forall_inv G) as Gp. apply Forall_inv_tail in G. specialize (IH (S n) G ltac:(lia)).
  assert (Later : forall r f, In f (map fl_name (number_from prefix (S n) l)) -> bltb (prefix ++ B"_" ++ pad2 n ++ r) f = true).
  { intros r f H. apply in_map_iff in H. destruct H as (g & <- & H). apply number_in in H. destruct H as (m & r' & B & ->).
    rewrite !bltb_app_same. destruct (pad2_less n m) as (L1 & L2); [lia|]. apply bltb_app_less; assumption. }
  set (rest := number_from prefix (S n) l) in *.
  destruct (ps_undo p) as [u|] eqn:U.
  - cbn [app map fl_name]. constructor; [|constructor; [|exact IH]]; rewrite Forall_forall.
    + intros f [<-|H].
      * rewrite bltb_app_same. destruct Gp as [X|[X|[X|X]]]; [rewrite X in U; discriminate|..]; rewrite X; reflexivity.
      * rewrite <- !app_assoc. apply Later. exact H.
    + intros f H. rewrite <- !app_assoc. apply Later. exact H.
  - cbn [app]. constructor; [|exact IH]. rewrite Forall_forall. intros f H. rewrite <- !app_assoc. apply Later. exact H.
Qed.

(** ** The steps of a migration *)
Lemma good_steps : forall l, (forall p, In p l -> ps_ext p = B".sql" \/ ps_ext p = B".tx.sql" \/ ps_ext p = B".txoff.sql") -> Forall good_ext l.
Proof. intros l H. apply Forall_forall. intros p Hp. right. auto. Qed.
Definition file_ext (p : step) : Prop := ps_ext p = B".sql" \/ ps_ext p = B".tx.sql" \/ ps_ext p = B".txoff.sql".
Lemma step_if_in : forall b p q, In q (step_if b p) -> q = p.
Proof. intros [|] p q H; cbn in H; [|contradiction]. destruct H as [H|[]]; auto. Qed.
Lemma in_file_in : forall {A} (l : list A) p q, In q (in_file l p) -> q = p.
Proof. intros A [|a l] p q H; cbn in H; [contradiction|]. destruct H as [H|[]]; auto. Qed.
Ltac split_steps H :=
  match type of H with
  | In _ (?x ++ ?y) => apply (in_app_or x y) in H; destruct H as [H|H]; split_steps H
  | In _ (map _ _) => apply in_map_iff in H; let x := fresh "x" in let E := fresh "E" in destruct H as (x & <- & H)
  | In _ (step_if _ _) => apply step_if_in in H; subst
  | In _ (in_file _ _) => apply in_file_in in H; subst
  | _ => idtac
  end.
Lemma mysql_ext : forall cur p q, In q (mysql_steps cur p) -> file_ext q.
Proof. intros cur p q H. unfold mysql_steps in H. split_steps H; left; reflexivity. Qed.
Lemma collected : forall {A C D} (f : A -> result (C * D)) l r x,
  flatr (fun a => bindr (f a) (fun y => Ok [y])) l = Ok r -> In x r -> exists a, In a l /\ f a = Ok x.
Proof.
  intros A C D f l. induction l as [|a l IH]; intros r x H Hx; cbn [flatr] in H.
  - injection H as <-. contradiction.
  - invert_binds H. invert_binds E. injection E as <-. injection H as <-. destruct Hx as [<-|Hx].
    + exists a. cbn. auto.
    + destruct (IH _ _ E0 Hx) as (b & Hb & Eb). exists b. cbn. auto.
Qed.
Lemma alter_postgres_ext : forall flt cat a l w q, alter_steps_postgres flt cat a = Ok (l, w) -> In q l -> file_ext q.
Proof.
  intros flt cat a l w q H Hq. unfold alter_steps_postgres in H. invert_binds H. injection H as <- _.
  destruct Hq as [<-|Hq]; [right; left; reflexivity|]. split_steps Hq.
  - right; left; reflexivity.
  - right; right; reflexivity.
  - apply in_flat_map in Hq. destruct Hq as (c & _ & [<-|[<-|[]]]); [right; right|right; left]; reflexivity.
Qed.
Lemma postgres_ext : forall flt cat p l w q, postgres_steps flt cat p = Ok (l, w) -> In q l -> file_ext q.
Proof.
  intros flt cat p l w q H Hq. unfold postgres_steps in H. invert_binds H. injection H as <- _. split_steps Hq; try (left; reflexivity); try (right; left; reflexivity).
  - apply in_flat_map in Hq. destruct Hq as ((l' & w') & Hx & Hq). apply (collected _ _ _ _ E) in Hx. destruct Hx as (a & _ & Ha).
    exact (alter_postgres_ext _ _ _ _ _ _ Ha Hq).
  - apply in_flat_map in Hq. destruct Hq as (c & _ & [<-|[<-|[]]]); right; left; reflexivity.
Qed.
Lemma alter_sqlserver_ext : forall cat a l w q, alter_steps_sqlserver cat a = Ok (l, w) -> In q l -> file_ext q.
Proof.
  intros cat a l w q H Hq. unfold alter_steps_sqlserver in H. invert_binds H. injection H as <- _.
  destruct Hq as [<-|Hq]; [right; left; reflexivity|]. split_steps Hq; right; left; reflexivity.
Qed.
Lemma sqlserver_ext : forall cat p l w q, sqlserver_steps cat p = Ok (l, w) -> In q l -> file_ext q.
Proof.
  intros cat p l w q H Hq. unfold sqlserver_steps in H. invert_binds H. injection H as <- _. split_steps Hq; try (left; reflexivity); try (right; left; reflexivity).
  apply in_flat_map in Hq. destruct Hq as ((l' & w') & Hx & Hq). apply (collected _ _ _ _ E) in Hx. destruct Hx as (a & _ & Ha).
  exact (alter_sqlserver_ext _ _ _ _ _ Ha Hq).
Qed.

Lemma count_steps : forall prefix l n, List.length (filter (fun f => negb (fl_undo f)) (number_from prefix n l)) = List.length l.
Proof.
  intros prefix l. induction l as [|p l IH]; intro n; [reflexivity|]. cbn [number_from filter fl_undo negb List.length]. f_equal.
  rewrite filter_app, app_length, IH. destruct (ps_undo p); reflexivity.
Qed.
(** The files of the other dialects are numbered steps. *)
Lemma numbered : forall d flt prefix src dest drop files ws, d <> SQLite -> results d flt prefix src dest drop = Ok (files, ws) ->
  exists l, files = number prefix l /\ Forall file_ext l.
Proof.
  intros d flt prefix src dest drop files ws N H. destruct d; try contradiction; try discriminate H; cbn [results] in H.
  - invert_binds H. destruct x0 as (l & w). injection H as <- _. exists l. split; [reflexivity|]. apply Forall_forall. intros q Hq. eapply postgres_ext; eassumption.
  - invert_binds H. injection H as <- _. eexists. split; [reflexivity|]. apply Forall_forall. intros q Hq. eapply mysql_ext; eassumption.
  - invert_binds H. destruct x0 as (l & w). injection H as <- _. exists l. split; [reflexivity|]. apply Forall_forall. intros q Hq. eapply sqlserver_ext; eassumption.
Qed.
Theorem names_in_order : forall d flt prefix src dest drop files ws,
  results d flt prefix src dest drop = Ok (files, ws) -> List.length (filter (fun f => negb (fl_undo f)) files) < 100 ->
  alphabetical (map fl_name files).
Proof.
  intros d flt prefix src dest drop files ws H L. destruct d.
  1: { cbn [results] in H. invert_binds H. injection H as <- _. destruct (none _); cbn; repeat constructor. }
  all: apply numbered in H; [|discriminate]; destruct H as (l & -> & F);
    unfold number in *; rewrite count_steps in L; apply number_sorted; [|lia];
    eapply Forall_impl; [|exact F]; intros p P; right; exact P.
Qed.
(** Sorting a list in alphabetical order does not change it. *)
Lemma sort_alphabetical : forall l, alphabetical l -> sort_strings l = l.
Proof.
  intros l H. induction H as [|a l F H IH]; [reflexivity|]. unfold sort_strings in *. cbn [fold_right]. rewrite IH.
  destruct l as [|b l]; [reflexivity|]. cbn [insert_sorted]. rewrite (bltb_asym _ _ (Forall_inv F)). reflexivity.
Qed.
