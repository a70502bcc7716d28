(** Statements that add indexes and constraints to the tables of a database. *)
From Coq Require Import Permutation.
From Verif Require Import GoStr GoStrFacts SpecSql SpecInsert SpecTokens SpecDdl ModelCatalog ModelDiff ModelDiffSql ModelDdlText SpecDdlText SpecDiff SpecApply ApplyFacts SpecLoad.

(** ** Names *)
Lemma eqb_entry_spec a b : reflect (a = b) (eqb_entry a b).
Proof.
  destruct a as [[[s n] t] m], b as [[[s' n'] t'] m']. cbn [eqb_entry].
  destruct s, s'; cbn [eqb_space andb]; try (constructor; congruence);
    (destruct (beqb_spec n n') as [->|]; [|constructor; congruence]);
    (destruct (beqb_spec m m') as [->|]; [|constructor; congruence]); cbn [andb];
    (destruct t as [u|], t' as [u'|]; [destruct (beqb_spec u u') as [->|]| | |]; constructor; congruence).
Qed.
Lemma unused_In d x l : (forall e, In e l -> ~ In e (names_in d x)) -> unused d x l = true.
Proof.
  intros H. apply forallb_forall. intros e He. apply negb_true_iff. destruct (existsb (eqb_entry e) (names_in d x)) eqn:E; [|reflexivity].
  apply existsb_exists in E as (e' & He' & E). destruct (eqb_entry_spec e e') as [->|]; [|discriminate E]. destruct (H e' He He').
Qed.
Lemma nodup_apart {A} (l1 l2 : list A) a : NoDup (l1 ++ l2) -> In a l1 -> ~ In a l2.
Proof.
  intros N H1 H2. apply in_split in H1 as (x & y & ->). rewrite <- app_assoc in N. cbn in N. apply NoDup_remove_2 in N. apply N. rewrite !in_app_iff. tauto.
Qed.

Section Adding.
Context (d : dialect) (cur : bytes).
Definition op := ((bytes * bytes) * (index_def + constraint_def))%type.
Definition do_op (o : op) : ldb -> option ldb :=
  match snd o with inl i => add_index d (fst o) i | inr k => add_constraint d cur (fst o) k false end.
Definition op_names (o : op) : list entry :=
  match snd o with inl i => [index_entry d (fst o) (xd_name i)] | inr k => names_of_constraint d (fst o) k end.
Definition keys_at (q : bytes * bytes) (l : list op) : list (constraint_def * bool) :=
  flat_map (fun o : op => if qeqb (fst o) q then match snd o with inr k => [(k, false)] | inl _ => [] end else []) l.
Definition indexes_at (q : bytes * bytes) (l : list op) : list index_def :=
  flat_map (fun o : op => if qeqb (fst o) q then match snd o with inl i => [i] | inr _ => [] end else []) l.
Definition grow (l : list op) (t : ltable) : ltable :=
  LTable (lt_place t) (lt_columns t) (lt_constraints t ++ keys_at (lt_place t) l) (lt_indexes t ++ indexes_at (lt_place t) l).
Definition state (x : ldb) (l : list op) : ldb := LDb (l_schemas x) (map (grow l) (l_tables x)).

Lemma grow_nil t : grow [] t = t.
Proof. destruct t. unfold grow. cbn. rewrite !app_nil_r. reflexivity. Qed.
Lemma state_nil x : state x [] = x.
Proof. destruct x as [s l]. unfold state. cbn [l_schemas l_tables]. f_equal. rewrite <- (map_id l) at 2. apply map_ext. exact grow_nil. Qed.
Lemma find_state x l q : find_table (state x l) q = option_map (grow l) (find_table x q).
Proof.
  unfold find_table, state. cbn [l_tables]. induction (l_tables x) as [|t ts IH]; [reflexivity|]. cbn [map find grow lt_place].
  destruct (qeqb (lt_place t) q); [reflexivity|exact IH].
Qed.
Lemma change_index x l q i :
  change_table (state x l) q (fun t => LTable (lt_place t) (lt_columns t) (lt_constraints t) (lt_indexes t ++ [i])) = state x (l ++ [(q, inl i)]).
Proof.
  unfold change_table, state. cbn [l_schemas l_tables]. f_equal. rewrite map_map. apply map_ext. intros t. unfold grow. cbn [lt_place lt_columns lt_constraints lt_indexes].
  unfold keys_at, indexes_at. rewrite !flat_map_app. cbn [flat_map fst snd].
  destruct (qeqb_spec (lt_place t) q) as [E|N].
  - rewrite <- E, qeqb_refl. rewrite !app_nil_r, app_assoc. reflexivity.
  - destruct (qeqb_spec q (lt_place t)); [congruence|]. rewrite !app_nil_r. reflexivity.
Qed.
Lemma change_constraint x l q k :
  change_table (state x l) q (fun t => LTable (lt_place t) (lt_columns t) (lt_constraints t ++ [(k, false)]) (lt_indexes t)) = state x (l ++ [(q, inr k)]).
Proof.
  unfold change_table, state. cbn [l_schemas l_tables]. f_equal. rewrite map_map. apply map_ext. intros t. unfold grow. cbn [lt_place lt_columns lt_constraints lt_indexes].
  unfold keys_at, indexes_at. rewrite !flat_map_app. cbn [flat_map fst snd].
  destruct (qeqb_spec (lt_place t) q) as [E|N].
  - rewrite <- E, qeqb_refl. rewrite !app_nil_r, app_assoc. reflexivity.
  - destruct (qeqb_spec q (lt_place t)); [congruence|]. rewrite !app_nil_r. reflexivity.
Qed.
Lemma in_keys_at q l kb : In kb (keys_at q l) <-> snd kb = false /\ In (q, inr (fst kb)) l.
Proof.
  unfold keys_at. rewrite in_flat_map. split.
  - intros ([q' [i|k]] & Ho & H); cbn [fst snd] in H; destruct (qeqb_spec q' q) as [->|]; try (exfalso; exact H); destruct H as [<-|[]]. split; [reflexivity|exact Ho].
  - destruct kb as [k b]. cbn [fst snd]. intros (-> & H). exists (q, inr k). split; [exact H|]. cbn [fst snd]. rewrite qeqb_refl. left. reflexivity.
Qed.
Lemma in_indexes_at q l i : In i (indexes_at q l) <-> In (q, inl i) l.
Proof.
  unfold indexes_at. rewrite in_flat_map. split.
  - intros ([q' [j|k]] & Ho & H); cbn [fst snd] in H; destruct (qeqb_spec q' q) as [->|]; try (exfalso; exact H); destruct H as [<-|[]]. exact Ho.
  - intros H. exists (q, inl i). split; [exact H|]. cbn [fst snd]. rewrite qeqb_refl. left. reflexivity.
Qed.
Lemma names_state x l e : In e (names_in d (state x l)) -> In e (names_in d x) \/ In e (flat_map op_names l).
Proof.
  unfold names_in, state. cbn [l_tables]. rewrite !in_flat_map. intros (t' & Ht' & He). apply in_map_iff in Ht' as (t & <- & Ht).
  unfold names_of_table in He. cbn [grow lt_place lt_columns lt_constraints lt_indexes] in He. rewrite flat_map_app, map_app in He.
  cbn [In] in He. rewrite !in_app_iff in He. destruct He as [He|[[He|He]|[He|He]]].
  - left. exists t. split; [exact Ht|]. left. exact He.
  - left. exists t. split; [exact Ht|]. right. apply in_or_app. left. exact He.
  - right. apply in_flat_map in He as (kb & Hk & He). apply in_keys_at in Hk as (_ & Hk). exists (lt_place t, inr (fst kb)). split; [exact Hk|exact He].
  - left. exists t. split; [exact Ht|]. right. apply in_or_app. right. exact He.
  - right. apply in_map_iff in He as (i & <- & Hi). apply in_indexes_at in Hi. exists (lt_place t, inl i). split; [exact Hi|left; reflexivity].
Qed.

(** What has to hold when an index or constraint is added, apart from the names. *)
Definition accepted (x : ldb) (o : op) : Prop :=
  exists t, find_table x (fst o) = Some t
    /\ match snd o with inl i => can_index t i = true | inr k => name_of d k <> None /\ can_have d cur x t k = true end.
Lemma do_step x l o : accepted (state x l) o -> (forall e, In e (op_names o) -> ~ In e (names_in d x ++ flat_map op_names l)) ->
  do_op o (state x l) = Some (state x (l ++ [o])).
Proof.
  intros (t & F & A) N. destruct o as [q [i|k]]; cbn [fst snd op_names] in *; unfold do_op; cbn [fst snd].
  - unfold add_index. rewrite F. cbn [andthen]. rewrite A, unused_In; [rewrite change_index; reflexivity|].
    intros e He Hn. apply (N e); [exact He|]. apply in_or_app. apply names_state. exact Hn.
  - destruct A as (Nn & A). unfold add_constraint. rewrite F. cbn [andthen]. unfold names_of_constraint in N. cbn [snd fst] in N. destruct (name_of d k) as [n|]; [|congruence]. cbn [andthen].
    rewrite A, unused_In; [rewrite change_constraint; reflexivity|]. intros e He Hn. apply (N e He). apply in_or_app. apply names_state. exact Hn.
Qed.
Lemma each_app {A X} (f : A -> X -> option X) l l' x : each_in f (l ++ l') x = each_in f l' (each_in f l x).
Proof. unfold each_in. apply fold_left_app. Qed.
Lemma do_all x : forall ops l, NoDup (names_in d x ++ flat_map op_names (l ++ ops)) ->
  (forall l1 o l2, ops = l1 ++ o :: l2 -> accepted (state x (l ++ l1)) o) ->
  each_in do_op ops (Some (state x l)) = Some (state x (l ++ ops)).
Proof.
  induction ops as [|o ops IH]; intros l N A; [rewrite app_nil_r; reflexivity|]. unfold each_in. cbn [fold_left andthen].
  rewrite do_step.
  - replace (l ++ o :: ops) with ((l ++ [o]) ++ ops) in * by (rewrite <- app_assoc; reflexivity). apply IH; [exact N|].
    intros l1 o' l2 ->. rewrite <- app_assoc. apply (A (o :: l1) o' l2). reflexivity.
  - rewrite <- (app_nil_r l). apply (A [] o ops eq_refl).
  - intros e He Hn. rewrite flat_map_app in N. cbn [flat_map] in N. rewrite (app_assoc (names_in d x)) in N. apply (nodup_apart _ _ e N Hn). apply in_or_app. left. exact He.
Qed.
End Adding.
