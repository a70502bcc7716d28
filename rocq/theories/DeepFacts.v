(** Facts for C104: what the copy of a catalog can reach. *)
From Coq Require Import Lia.
From Verif Require Import GoStr GoStrFacts ModelCatalog ModelCache ModelDeep SpecDeep.

(** ** The heap only grows *)
Definition grows (h h' : heap) : Prop := exists e, h' = h ++ e.
Lemma grows_refl h : grows h h.
Proof. exists []. symmetry. apply app_nil_r. Qed.
Lemma grows_trans h1 h2 h3 : grows h1 h2 -> grows h2 h3 -> grows h1 h3.
Proof. intros (e & ->) (e' & ->). exists (e ++ e'). symmetry. apply app_assoc. Qed.
Lemma grows_length h h' : grows h h' -> List.length h <= List.length h'.
Proof. intros (e & ->). rewrite app_length. lia. Qed.
Lemma grows_nth h h' i : grows h h' -> i < List.length h -> nth_error h' i = nth_error h i.
Proof. intros (e & ->) L. apply nth_error_app1. exact L. Qed.

(** nil or a cell that was not there when the heap had [n] cells. *)
Definition fresh (n : nat) (h : heap) (r : ref) : Prop := forall i, r = Some i -> n <= i < List.length h.
Lemma fresh_weaker n m h h' r : n <= m -> grows h h' -> fresh m h r -> fresh n h' r.
Proof. intros L G F i E. specialize (F i E). apply grows_length in G. lia. Qed.
Lemma fresh_none n h : fresh n h None.
Proof. intros i E. discriminate E. Qed.
Lemma clone_fresh h r h' r' : clone h r = (h', r') -> grows h h' /\ fresh (List.length h) h' r'.
Proof.
  unfold clone. destruct r as [i|]; [destruct (nth_error h i) as [c|]|]; intros E; injection E as <- <-.
  - split; [exists [c]; reflexivity|]. intros j E. injection E as <-. rewrite app_length. cbn. lia.
  - split; [apply grows_refl|apply fresh_none].
  - split; [apply grows_refl|apply fresh_none].
Qed.

(** ** Steps that only add what is fresh or in [own] *)
Section Steps.
Context (own : ref -> Prop).
Definition owned (n : nat) (h : heap) (r : ref) : Prop := own r \/ fresh n h r.
Lemma owned_weaker n m h h' r : n <= m -> grows h h' -> owned m h r -> owned n h' r.
Proof. intros L G [O|F]; [left; exact O|right; exact (fresh_weaker _ _ _ _ _ L G F)]. Qed.
Definition safe_fill {A} (get : A -> list ref) (fill : A -> ModelDeep.state -> result (A * ModelDeep.state)) : Prop :=
  forall a st a' st', fill a st = Ok (a', st') ->
    grows (snd st) (snd st') /\ forall r, In r (get a') -> In r (get a) \/ owned (List.length (snd st)) (snd st') r.
(** Nothing of the object is left. *)
Definition safe_leaf {A} (get : A -> list ref) (fill : A -> ModelDeep.state -> result (A * ModelDeep.state)) : Prop :=
  forall a st a' st', fill a st = Ok (a', st') ->
    grows (snd st) (snd st') /\ forall r, In r (get a') -> owned (List.length (snd st)) (snd st') r.
Definition safe_step {A} (get : A -> list ref) (step : list A -> ModelDeep.state -> result (list A * ModelDeep.state)) : Prop :=
  forall l st l' st', step l st = Ok (l', st') ->
    grows (snd st) (snd st') /\ forall r, In r (flat_map get l') -> In r (flat_map get l) \/ owned (List.length (snd st)) (snd st') r.

Lemma in_set_nth {A} i (a x : A) l : In x (set_nth i a l) -> x = a \/ In x l.
Proof.
  revert i. induction l as [|y l IH]; intros [|i]; cbn; [tauto|tauto| |].
  - intros [E|I]; [left; symmetry; exact E|tauto].
  - intros [E|I]; [tauto|]. destruct (IH i I); tauto.
Qed.
Lemma set_nth_last {A} (a b : A) l : set_nth (List.length l) a (l ++ [b]) = l ++ [a].
Proof. induction l as [|y l IH]; [reflexivity|]. cbn [List.length app set_nth]. rewrite IH. reflexivity. Qed.
Lemma nth_last {A} (b : A) l : nth_error (l ++ [b]) (List.length l) = Some b.
Proof. rewrite nth_error_app2, Nat.sub_diag; [reflexivity|lia]. Qed.
Lemma safe_put {A} (get : A -> list ref) k x ignored new fill :
  safe_fill get fill -> (forall st a' st', fill new st = Ok (a', st') -> forall r, In r (get a') -> owned (List.length (snd st)) (snd st') r) ->
  safe_step get (put k x ignored new fill).
Proof.
  intros F N l [c h] l' st' E. unfold put in E. cbn [fst snd] in E. unfold get_or_create in E.
  destruct (at_pos ignored l (c k x)) as [[i|]| |]; try discriminate E; cbn [bindr] in E.
  - destruct (nth_error l i) as [a|] eqn:Ea; [|discriminate E]. destruct (fill a (c, h)) as [[a' st1]| |] eqn:Ef; try discriminate E. cbn [bindr] in E. injection E as <- <-.
    destruct (F _ _ _ _ Ef) as (G & S). split; [exact G|]. intros r I. apply in_flat_map in I as (y & Iy & I). apply in_set_nth in Iy as [->|Iy].
    + destruct (S r I) as [O|O]; [|right; exact O]. left. apply in_flat_map. exists a. split; [exact (nth_error_In _ _ Ea)|exact O].
    + left. apply in_flat_map. exists y. split; assumption.
  - rewrite nth_last in E.
    destruct (fill new (keep c k x (List.length l), h)) as [[a' st1]| |] eqn:Ef; try discriminate E. cbn [bindr] in E. injection E as <- <-.
    destruct (F _ _ _ _ Ef) as (G & _). split; [exact G|]. intros r I. rewrite set_nth_last, flat_map_app in I. apply in_app_or in I as [I|I]; [left; exact I|].
    cbn [flat_map] in I. rewrite app_nil_r in I. right. exact (N _ _ _ Ef r I).
Qed.
Lemma safe_leaf_put {A} (get : A -> list ref) k x ignored new fill : safe_leaf get fill -> safe_step get (put k x ignored new fill).
Proof.
  intros L. apply safe_put.
  - intros a st a' st' E. destruct (L a st a' st' E) as (G & S). split; [exact G|]. intros r I. right. exact (S r I).
  - intros st a' st' E r I. destruct (L _ st a' st' E) as (_ & S). exact (S r I).
Qed.
Lemma safe_all {A} (get : A -> list ref) step from : (forall a, In a from -> safe_step get (step a)) -> safe_step get (put_all step from).
Proof.
  induction from as [|a from IH]; intros H l st l' st' E; cbn [put_all] in E.
  - injection E as <- <-. split; [apply grows_refl|]. intros r I. left. exact I.
  - destruct (step a l st) as [[l1 st1]| |] eqn:E1; try discriminate E. cbn [bindr] in E.
    destruct (H a (or_introl eq_refl) _ _ _ _ E1) as (G1 & S1). destruct (IH (fun b I => H b (or_intror I)) _ _ _ _ E) as (G2 & S2).
    split; [exact (grows_trans _ _ _ G1 G2)|]. intros r I. destruct (S2 r I) as [O|O].
    + destruct (S1 r O) as [O1|O1]; [left; exact O1|right]. exact (owned_weaker _ _ _ _ _ (le_n _) G2 O1).
    + right. exact (owned_weaker _ _ _ _ _ (grows_length _ _ G1) (grows_refl _) O).
Qed.

(** ** The objects *)
Ltac cloning E :=
  repeat match type of E with
         | context [clone ?h ?r] => let h' := fresh "h" in let r' := fresh "r" in let C := fresh "C" in destruct (clone h r) as [h' r'] eqn:C; apply clone_fresh in C as (?Gr & ?Fr)
         end.
Ltac growing := repeat match goal with G : grows ?a ?b |- grows ?a ?c => first [exact G|apply (grows_trans _ _ _ G); clear G] end; try apply grows_refl.
Ltac one_fresh :=
  match goal with
  | F : fresh ?m ?h ?r |- owned ?n ?h' ?r => right; refine (fresh_weaker n m h h' r _ _ F); [repeat match goal with G : grows _ _ |- _ => apply grows_length in G end; lia|growing]
  end.
Ltac solve_leaf :=
  intros a [c h] a' st' E; cbn beta iota in E; cloning E; injection E as <- <-; cbn [snd]; split; [growing|];
  intros q I; cbn in I; repeat (destruct I as [<-|I]; [one_fresh|]); destruct I.
Lemma safe_enum s x : safe_step enum_slots (put_enum s x).
Proof. apply safe_leaf_put. solve_leaf. Qed.
Lemma safe_domain s x : safe_step domain_slots (put_domain s x).
Proof. apply safe_leaf_put. solve_leaf. Qed.
Lemma safe_routine s x : safe_step routine_slots (put_routine s x).
Proof. apply safe_leaf_put. solve_leaf. Qed.
Lemma safe_trigger s t x : safe_step trigger_slots (put_trigger s t x).
Proof. apply safe_leaf_put. solve_leaf. Qed.
Lemma safe_index s t x : safe_step index_slots (put_index s t x).
Proof. apply safe_leaf_put. solve_leaf. Qed.
Lemma safe_constraint s t x : safe_step constraint_slots (put_constraint s t x).
Proof. apply safe_leaf_put. solve_leaf. Qed.
Lemma safe_view_index s t x : own (oi_descending x) -> own (oi_opclasses x) -> safe_step index_slots (put_view_index s t x).
Proof.
  intros O1 O2. apply safe_leaf_put. intros a [c h] a' st' E; cbn beta iota in E; cloning E; injection E as <- <-; cbn [snd]; split; [growing|].
  intros q I; cbn in I; repeat (destruct I as [<-|I]; [first [one_fresh|left; assumption]|]); destruct I.
Qed.
Lemma safe_put_none {A} (get : A -> list ref) k x ignored new fill : safe_fill get fill -> (forall r, In r (get new) -> r = None) -> safe_step get (put k x ignored new fill).
Proof.
  intros F N. apply safe_put; [exact F|]. intros st a' st' E r I. destruct (F _ _ _ _ E) as (_ & S). destruct (S r I) as [O|O]; [|exact O].
  right. rewrite (N r O). apply fresh_none.
Qed.
Ltac only_none := intros q I; cbn in I; repeat (destruct I as [<-|I]; [reflexivity|]); destruct I.
Lemma safe_view s x : (forall i, In i (ov_indexes x) -> own (oi_descending i) /\ own (oi_opclasses i)) -> safe_step view_slots (put_view s x).
Proof.
  intros O. apply safe_put_none; [|only_none]. intros a [c h] a' st' E. cbn beta iota in E. cloning E.
  destruct (put_all _ (ov_indexes x) _ _) as [[l1 st1]| |] eqn:E1; try discriminate E. cbn [bindr] in E.
  destruct (put_all _ (ov_triggers x) _ _) as [[l2 st2]| |] eqn:E2; try discriminate E. cbn [bindr] in E. injection E as <- <-.
  destruct (safe_all index_slots _ _ (fun i I => safe_view_index _ _ i (proj1 (O i I)) (proj2 (O i I))) _ _ _ _ E1) as (H1 & S1).
  destruct (safe_all trigger_slots _ _ (fun i _ => safe_trigger _ _ i) _ _ _ _ E2) as (H2 & S2). cbn [snd] in *. split; [growing|].
  intros q I. unfold view_slots in I |- *. cbn [ov_columns ov_types ov_enums ov_indexes ov_triggers] in I. apply in_app_or in I as [I|I].
  - right. cbn in I; repeat (destruct I as [<-|I]; [one_fresh|]); destruct I.
  - apply in_app_or in I as [I|I].
    + destruct (S1 q I) as [J|J]; [left; apply in_or_app; right; apply in_or_app; left; exact J|right].
      refine (owned_weaker _ _ _ _ _ _ H2 J). repeat match goal with G : grows _ _ |- _ => apply grows_length in G end; lia.
    + destruct (S2 q I) as [J|J]; [left; apply in_or_app; right; apply in_or_app; right; exact J|right].
      refine (owned_weaker _ _ _ _ _ _ (grows_refl _) J). repeat match goal with G : grows _ _ |- _ => apply grows_length in G end; lia.
Qed.
Lemma safe_column s t x : safe_step (fun _ => []) (put_column s t x).
Proof. apply safe_leaf_put. intros a st a' st' E. injection E as <- <-. split; [apply grows_refl|]. intros r []. Qed.
Ltac in_part := solve [repeat first [assumption|apply in_or_app; left; assumption|apply in_or_app; right]].
Ltac part S I q :=
  destruct (S q I) as [J|J];
    [left; in_part
    |right; match type of J with owned _ ?h _ => refine (owned_weaker _ _ h _ _ _ _ J) end;
     [repeat match goal with G : grows _ _ |- _ => apply grows_length in G end; lia|growing]].
Lemma safe_table s x : safe_step table_slots (put_table s x).
Proof.
  apply safe_put_none; [|only_none]. intros a st a' st' E. cbn beta iota in E.
  destruct (put_all _ (oa_columns x) _ _) as [[l1 st1]| |] eqn:E1; try discriminate E. cbn [bindr] in E.
  destruct (put_all _ (oa_constraints x) _ _) as [[l2 st2]| |] eqn:E2; try discriminate E. cbn [bindr] in E.
  destruct (put_all _ (oa_indexes x) _ _) as [[l3 st3]| |] eqn:E3; try discriminate E. cbn [bindr] in E.
  destruct (put_all _ (oa_triggers x) _ _) as [[l4 st4]| |] eqn:E4; try discriminate E. cbn [bindr] in E. injection E as <- <-.
  destruct (safe_all (fun _ => []) _ _ (fun i _ => safe_column _ _ i) _ _ _ _ E1) as (G1 & _).
  destruct (safe_all constraint_slots _ _ (fun i _ => safe_constraint _ _ i) _ _ _ _ E2) as (H2 & S2).
  destruct (safe_all index_slots _ _ (fun i _ => safe_index _ _ i) _ _ _ _ E3) as (G3 & S3).
  destruct (safe_all trigger_slots _ _ (fun i _ => safe_trigger _ _ i) _ _ _ _ E4) as (G4 & S4). split; [growing|].
  intros q I. unfold table_slots in I |- *. cbn [oa_constraints oa_indexes oa_triggers] in I.
  apply in_app_or in I as [I|I]; [part S2 I q|]. apply in_app_or in I as [I|I]; [part S3 I q|part S4 I q].
Qed.
Lemma safe_schema x : (forall v i, In v (os_views x) -> In i (ov_indexes v) -> own (oi_descending i) /\ own (oi_opclasses i)) -> safe_step schema_slots (put_schema x).
Proof.
  intros O. apply safe_put_none; [|only_none]. intros a st a' st' E. cbn beta iota in E.
  destruct (put_all _ (os_enums x) _ _) as [[l1 st1]| |] eqn:E1; try discriminate E. cbn [bindr] in E.
  destruct (put_all _ (os_domains x) _ _) as [[l2 st2]| |] eqn:E2; try discriminate E. cbn [bindr] in E.
  destruct (put_all _ (os_routines x) _ _) as [[l3 st3]| |] eqn:E3; try discriminate E. cbn [bindr] in E.
  destruct (put_all _ (os_views x) _ _) as [[l4 st4]| |] eqn:E4; try discriminate E. cbn [bindr] in E.
  destruct (put_all _ (os_tables x) _ _) as [[l5 st5]| |] eqn:E5; try discriminate E. cbn [bindr] in E. injection E as <- <-.
  destruct (safe_all enum_slots _ _ (fun i _ => safe_enum _ i) _ _ _ _ E1) as (H1 & S1).
  destruct (safe_all domain_slots _ _ (fun i _ => safe_domain _ i) _ _ _ _ E2) as (H2 & S2).
  destruct (safe_all routine_slots _ _ (fun i _ => safe_routine _ i) _ _ _ _ E3) as (G3 & S3).
  destruct (safe_all view_slots _ _ (fun v I => safe_view _ v (fun i => O v i I)) _ _ _ _ E4) as (G4 & S4).
  destruct (safe_all table_slots _ _ (fun i _ => safe_table _ i) _ _ _ _ E5) as (G5 & S5). split; [growing|].
  intros q I. unfold schema_slots in I |- *. cbn [os_enums os_domains os_routines os_views os_tables] in I.
  apply in_app_or in I as [I|I]; [part S1 I q|]. apply in_app_or in I as [I|I]; [part S2 I q|]. apply in_app_or in I as [I|I]; [part S3 I q|].
  apply in_app_or in I as [I|I]; [part S4 I q|part S5 I q].
Qed.
(** What the copy reaches: what it reached before, new cells and [own]. *)
Lemma written src dest h dest' h' :
  (forall s v i, In s (og_schemas src) -> In v (os_views s) -> In i (ov_indexes v) -> own (oi_descending i) /\ own (oi_opclasses i)) ->
  write_catalog src dest h = Ok (dest', h') ->
  grows h h' /\ forall r, In r (slots dest') -> In r (slots dest) \/ owned (List.length h) h' r.
Proof.
  intros O E. unfold write_catalog in E. cloning E.
  destruct (put_all _ _ _ _) as [[l [c' h2]]| |] eqn:E1; try discriminate E. cbn [bindr] in E. injection E as <- <-.
  destruct (safe_all schema_slots _ _ (fun s I => safe_schema s (fun v i => O s v i I)) _ _ _ _ E1) as (H1 & S1). cbn [snd] in *. split; [growing|].
  intros q I. unfold slots in I |- *. cbn [og_version og_extensions og_schemas] in I. apply in_app_or in I as [I|I].
  - right. cbn in I; repeat (destruct I as [<-|I]; [one_fresh|]); destruct I.
  - part S1 I q.
Qed.
End Steps.

(** ** Contents *)
Lemma map_same {A C} (f g : A -> C) l : (forall a, In a l -> f a = g a) -> map f l = map g l.
Proof. apply map_ext_in. Qed.
Section Same.
Context {S : Type} (f g : ref -> S).
Ltac slot := match goal with H : forall r, In r ?l -> f r = g r |- f ?r = g ?r => apply H; cbn; tauto end.
Lemma enum_same x : (forall r, In r (enum_slots x) -> f r = g r) -> enum_with f x = enum_with g x.
Proof. intros H. unfold enum_with. f_equal; slot. Qed.
Lemma domain_same x : (forall r, In r (domain_slots x) -> f r = g r) -> domain_with f x = domain_with g x.
Proof. intros H. unfold domain_with. f_equal; slot. Qed.
Lemma routine_same x : (forall r, In r (routine_slots x) -> f r = g r) -> routine_with f x = routine_with g x.
Proof. intros H. unfold routine_with. f_equal; slot. Qed.
Lemma trigger_same x : (forall r, In r (trigger_slots x) -> f r = g r) -> trigger_with f x = trigger_with g x.
Proof. intros H. unfold trigger_with. f_equal; slot. Qed.
Lemma index_same x : (forall r, In r (index_slots x) -> f r = g r) -> index_with f x = index_with g x.
Proof. intros H. unfold index_with. f_equal; slot. Qed.
Lemma constraint_same x : (forall r, In r (constraint_slots x) -> f r = g r) -> constraint_with f x = constraint_with g x.
Proof. intros H. unfold constraint_with. f_equal; slot. Qed.
Lemma in_piece {A} (get : A -> list ref) l a r : In a l -> In r (get a) -> In r (flat_map get l).
Proof. intros I J. apply in_flat_map. exists a. auto. Qed.
Ltac pieces L H := apply map_same; intros y Iy; apply L; intros r Ir; apply H; repeat (first [apply in_or_app; left; exact (in_piece _ _ _ _ Iy Ir)|apply in_or_app; right|exact (in_piece _ _ _ _ Iy Ir)]).
Lemma view_same x : (forall r, In r (view_slots x) -> f r = g r) -> view_with f x = view_with g x.
Proof. intros H. unfold view_with. unfold view_slots in H. f_equal; try slot; [pieces index_same H|pieces trigger_same H]. Qed.
Lemma table_same x : (forall r, In r (table_slots x) -> f r = g r) -> table_with f x = table_with g x.
Proof. intros H. unfold table_with. unfold table_slots in H. f_equal; [pieces constraint_same H|pieces index_same H|pieces trigger_same H]. Qed.
Lemma schema_same x : (forall r, In r (schema_slots x) -> f r = g r) -> schema_with f x = schema_with g x.
Proof. intros H. unfold schema_with. unfold schema_slots in H. f_equal; [pieces table_same H|pieces view_same H|pieces routine_same H|pieces enum_same H|pieces domain_same H]. Qed.
Lemma catalog_same x : (forall r, In r (slots x) -> f r = g r) -> catalog_with f x = catalog_with g x.
Proof. intros H. unfold catalog_with. unfold slots in H. f_equal; try (apply H; cbn; tauto). pieces schema_same H. Qed.
End Same.
Lemma contents_same h h' x : (forall i, reaches x i -> nth_error h' i = nth_error h i) -> contents h' x = contents h x.
Proof. intros H. apply catalog_same. intros [i|] I; [exact (H i I)|reflexivity]. Qed.
