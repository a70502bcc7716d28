(** The statements of batch_insert.go make an upsert. *)
From Verif Require Import GoStr GoStrFacts ModelSq SpecSql SqFacts ModelBatch SpecInsert BatchText BatchFacts.
From Coq Require Import ZifyBool ZifyNat.

(** ** Keys *)
Lemma sql_eqb_iff a b : sql_eqb a b = true <-> a = b /\ a <> None.
Proof.
  destruct a, b; cbn; split; try discriminate; try (intros (? & ?); congruence).
  - intros H. apply beqb_eq in H. subst. split; [reflexivity|discriminate].
  - intros ([= ->] & _). apply beqb_refl.
Qed.
Lemma same_key_iff keys a b : same_key keys a b = true <-> forall k, In k keys -> a k = b k /\ a k <> None.
Proof.
  unfold same_key. rewrite forallb_forall. split; intros H k Hk; [apply sql_eqb_iff|apply sql_eqb_iff]; apply H; exact Hk.
Qed.
Lemma same_key_sym keys a b : same_key keys a b = same_key keys b a.
Proof.
  apply eq_true_iff_eq. rewrite !same_key_iff. split; intros H k Hk; destruct (H k Hk) as [H1 H2]; (split; congruence).
Qed.
Lemma same_key_trans keys a b c : same_key keys a b = true -> same_key keys b c = true -> same_key keys a c = true.
Proof.
  rewrite !same_key_iff. intros H1 H2 k Hk. destruct (H1 k Hk), (H2 k Hk). split; congruence.
Qed.
Lemma same_key_ext keys a a' b : (forall k, In k keys -> a k = a' k) -> same_key keys a b = same_key keys a' b.
Proof.
  intros H. apply eq_true_iff_eq. rewrite !same_key_iff. split; intros H1 k Hk; destruct (H1 k Hk) as [H2 H3]; rewrite (H k Hk) in *; split; assumption.
Qed.
Lemma joined_same_key keys a b : joined (map (fun k => (k, k)) keys) a b = same_key keys a b.
Proof. unfold joined, same_key. induction keys as [|k keys IH]; [reflexivity|]. cbn [map forallb fst snd]. rewrite IH. reflexivity. Qed.

(** ** Upsert with a function that changes the existing row *)
Definition upserted_by (keys : list bytes) (f : trow -> trow -> trow) (new : list trow) (t : table) : table :=
  map (fun x => match find (fun r => same_key keys x r) new with Some r => f r x | None => x end) t
  ++ filter (fun r => negb (existsb (fun x => same_key keys x r) t)) new.
Definition upsert_one (keys : list bytes) (f : trow -> trow -> trow) (t : table) (r : trow) : table :=
  if existsb (fun x => same_key keys x r) t
  then map (fun x => if same_key keys x r then f r x else x) t
  else t ++ [r].

Definition keeps_keys (keys : list bytes) (f : trow -> trow -> trow) : Prop := forall new old k, In k keys -> f new old k = old k.

Lemma find_none {X} (p : X -> bool) l : (forall x, In x l -> p x = false) -> find p l = None.
Proof. induction l as [|x l IH]; intros H; [reflexivity|]. cbn. rewrite (H x) by (left; reflexivity). apply IH. intros y Hy. apply H. right. exact Hy. Qed.
Lemma find_ext' {X} (p q : X -> bool) l : (forall x, In x l -> p x = q x) -> find p l = find q l.
Proof. induction l as [|x l IH]; intros H; [reflexivity|]. cbn. rewrite (H x) by (left; reflexivity). rewrite IH by (intros y Hy; apply H; right; exact Hy). reflexivity. Qed.
Lemma existsb_ext' {X} (p q : X -> bool) l : (forall x, In x l -> p x = q x) -> existsb p l = existsb q l.
Proof. induction l as [|x l IH]; intros H; [reflexivity|]. cbn. rewrite (H x) by (left; reflexivity). rewrite IH by (intros y Hy; apply H; right; exact Hy). reflexivity. Qed.
Lemma existsb_map {X Y} (p : Y -> bool) (g : X -> Y) l : existsb p (map g l) = existsb (fun x => p (g x)) l.
Proof. induction l as [|x l IH]; [reflexivity|]. cbn. rewrite IH. reflexivity. Qed.
Lemma filter_ext' {X} (p q : X -> bool) l : (forall x, In x l -> p x = q x) -> filter p l = filter q l.
Proof. induction l as [|x l IH]; intros H; [reflexivity|]. cbn. rewrite (H x) by (left; reflexivity). rewrite IH by (intros y Hy; apply H; right; exact Hy). reflexivity. Qed.

Lemma upsert_step keys f r rs t : keeps_keys keys f -> Forall (fun s => same_key keys r s = false) rs ->
  upserted_by keys f rs (upsert_one keys f t r) = upserted_by keys f (r :: rs) t.
Proof.
  intros Hk Hd. rewrite Forall_forall in Hd. unfold upsert_one.
  assert (Hnf : forall x, same_key keys x r = true -> find (fun s => same_key keys x s) rs = None).
  { intros x Hx. apply find_none. intros s Hs. destruct (same_key keys x s) eqn:E; [|reflexivity].
    rewrite <- (Hd s Hs). symmetry. apply (same_key_trans keys r x s); [rewrite same_key_sym; exact Hx|exact E]. }
  destruct (existsb (fun x => same_key keys x r) t) eqn:E.
  - unfold upserted_by. rewrite map_map. cbn [filter]. rewrite E. cbn [negb]. f_equal.
    + apply map_ext. intros x. cbn [find]. destruct (same_key keys x r) eqn:Ex; [|reflexivity].
      rewrite (find_ext' _ (fun s => same_key keys x s)).
      * rewrite (Hnf x Ex). reflexivity.
      * intros s _. apply same_key_ext. intros k Hin. apply Hk. exact Hin.
    + apply filter_ext'. intros s _. f_equal. rewrite existsb_map. apply existsb_ext'. intros x _.
      destruct (same_key keys x r); [|reflexivity]. apply same_key_ext. intros k Hin. apply Hk. exact Hin.
  - unfold upserted_by. rewrite map_app. cbn [map filter]. rewrite E. cbn [negb].
    assert (Hr : find (fun s => same_key keys r s) rs = None) by (apply find_none; exact Hd).
    rewrite Hr, <- app_assoc. f_equal.
    + apply map_ext_in. intros x Hx. cbn [find].
      assert (Hxr : same_key keys x r = false).
      { destruct (same_key keys x r) eqn:Ex; [|reflexivity]. rewrite <- E. symmetry. apply existsb_exists. exists x. auto. }
      rewrite Hxr. reflexivity.
    + cbn [app]. f_equal. apply filter_ext'. intros s Hs. f_equal. rewrite existsb_app. cbn [existsb]. rewrite (Hd s Hs), !orb_false_r. reflexivity.
Qed.
Lemma upserted_nil keys f t : upserted_by keys f [] t = t.
Proof. unfold upserted_by. cbn [find filter]. rewrite app_nil_r. apply map_id. Qed.
Lemma upsert_fold keys f rs : keeps_keys keys f -> distinct keys rs -> forall t,
  fold_left (upsert_one keys f) rs t = upserted_by keys f rs t.
Proof.
  intros Hk. induction 1 as [|r rs Hr Hd IH]; intros t; cbn [fold_left]; [symmetry; apply upserted_nil|].
  rewrite IH. apply upsert_step; assumption.
Qed.
Lemma distinct_app keys a b : distinct keys (a ++ b) -> distinct keys a /\ distinct keys b.
Proof.
  induction a as [|x a IH]; cbn [app]; intros H; [split; [constructor|exact H]|].
  inversion H as [|y l H1 H2]; subst. apply Forall_app in H1. destruct (IH H2) as [H3 H4]. split; [constructor; [apply H1|exact H3]|exact H4].
Qed.
(** Batches compose. *)
Lemma upserted_by_app keys f a b t : keeps_keys keys f -> distinct keys (a ++ b) ->
  upserted_by keys f (a ++ b) t = upserted_by keys f b (upserted_by keys f a t).
Proof.
  intros Hk Hd. destruct (distinct_app _ _ _ Hd) as [Ha Hb].
  rewrite <- !upsert_fold by assumption. apply fold_left_app.
Qed.

(** ** Setting columns *)
Lemma set_new_columns l new old x :
  set_columns (map (fun c => (c, New c)) l) new old x = takes_over l new old x.
Proof.
  unfold set_columns, takes_over.
  assert (H : forall (r : trow), (forall y, r y = (if bmem y l then r y else r y)) ->
    fold_left (fun (r : trow) p => fun x => if beqb x (fst p) then match snd p with New c => new c | Old c => old c end else r x)
      (map (fun c => (c, New c)) l) r x = if bmem x l then new x else r x).
  { intros r _. revert r. induction l as [|c l IH]; intros r; [reflexivity|].
    cbn [map fold_left fst snd bmem existsb]. rewrite IH. change (existsb (beqb x) l) with (bmem x l).
    destruct (beqb_spec x c) as [->|Hn]; cbn [orb].
    - destruct (bmem c l); reflexivity.
    - reflexivity. }
  apply H. intros y. destruct (bmem y l); reflexivity.
Qed.
Lemma set_old_column k new old x : set_columns [(k, Old k)] new old x = old x.
Proof. unfold set_columns. cbn. destruct (beqb_spec x k) as [->|]; reflexivity. Qed.

Lemma non_key_not_key bi k : In k (key_columns bi) -> bmem k (non_key_columns bi) = false.
Proof.
  intros H. apply bmem_not_In. unfold non_key_columns. rewrite filter_In. intros [_ Hn].
  apply bmem_In in H. rewrite H in Hn. discriminate.
Qed.
Lemma new_columns_keep bi : keeps_keys (key_columns bi) (set_columns (map (fun c => (c, New c)) (non_key_columns bi))).
Proof. intros new old k Hk. rewrite set_new_columns. unfold takes_over. rewrite (non_key_not_key bi k Hk). reflexivity. Qed.
Lemma old_column_keeps keys k0 : keeps_keys keys (set_columns [(k0, Old k0)]).
Proof. intros new old k _. apply set_old_column. Qed.

Lemma upserted_by_same keys f cols new t : (forall n o, same_row (f n o) (takes_over cols n o)) ->
  same_table (upserted_by keys f new t) (upserted keys cols new t).
Proof.
  intros H. unfold upserted_by, upserted, same_table. apply Forall2_app.
  - induction t as [|x t IH]; [constructor|]. cbn [map]. constructor; [|exact IH].
    destruct (find _ new); [apply H|intros c; reflexivity].
  - generalize (filter (fun r => negb (existsb (fun x => same_key keys x r) t)) new). intros l.
    induction l; constructor; [intros c; reflexivity|exact IHl].
Qed.

(** ** Execution *)
(** All names mean what they say after quoting. *)
Definition readable (d : dialect) (n : bytes) : Prop := lex_ident d (quote_identifier d n) = Some (n, []).
Lemma readable_denoted d n : readable d n -> denoted d n = n.
Proof.
  unfold readable. intros H. pose proof (lex_quote_identifier d n [] I) as H2. rewrite app_nil_r in H2. rewrite H2 in H. congruence.
Qed.
Definition names_readable (bi : batch_insert) : Prop :=
  Forall (readable (bi_dialect bi)) (path_of bi ++ bi_columns bi).
Lemma dens_id bi l : names_readable bi -> (forall x, In x l -> In x (path_of bi ++ bi_columns bi)) -> dens bi l = l.
Proof.
  intros H Hl. unfold names_readable in H. rewrite Forall_forall in H. unfold dens, den.
  rewrite <- (map_id l) at 2. apply map_ext_in. intros x Hx. apply readable_denoted, H, Hl, Hx.
Qed.
Lemma den_id bi x : names_readable bi -> In x (bi_columns bi) -> den bi x = x.
Proof. intros H Hx. unfold names_readable in H. rewrite Forall_forall in H. apply readable_denoted, H. apply in_or_app. right. exact Hx. Qed.

(** The row that incoming values describe. *)
Definition incoming (bi : batch_insert) (dflt : trow) (vals : list val) : trow := assign (bi_columns bi) vals dflt.

Lemma values_incoming (w : nat) (ch : list (list val)) : Forall (fun r => List.length r = w) ch ->
  map (values_of (concat ch)) (indices (List.length ch) w) = ch.
Proof.
  intros H. pose proof (nth_concat w ch H) as Hn.
  assert (Hv : forall idx, values_of (concat ch) idx = map (fun o => match o with Some v => v | None => None end) (map (nth_error (concat ch)) idx)).
  { intros idx. unfold values_of. rewrite map_map. apply map_ext. intros i. generalize (concat ch). intros l.
    revert i. induction l as [|v l IH]; intros [|i]; try reflexivity. apply IH. }
  rewrite (map_ext _ _ Hv). rewrite <- (map_map (map (nth_error (concat ch))) (map (fun o => match o with Some v => v | None => None end))).
  rewrite Hn, map_map. rewrite <- (map_id ch) at 2. apply map_ext. intros r. rewrite map_map. apply map_id.
Qed.
Lemma rows_incoming bi dflt (ch : list (list val)) : Forall (fun r => List.length r = width bi) ch ->
  map (fun idx => assign (bi_columns bi) (values_of (concat ch) idx) dflt) (indices (List.length ch) (width bi)) = map (incoming bi dflt) ch.
Proof.
  intros H. transitivity (map (incoming bi dflt) (map (values_of (concat ch)) (indices (List.length ch) (width bi)))).
  - rewrite map_map. reflexivity.
  - rewrite (values_incoming (width bi) ch H). reflexivity.
Qed.

Lemma insert_or_set_one sc sets t r : sc_key sc <> [] -> insert_or_set sc sets r t = upsert_one (sc_key sc) (set_columns sets) t r.
Proof. intros Hk. unfold insert_or_set, upsert_one, exists_key. destruct (sc_key sc); [congruence|reflexivity]. Qed.
Lemma fold_left_ext {X Y} (f g : X -> Y -> X) l : (forall x y, f x y = g x y) -> forall x, fold_left f l x = fold_left g l x.
Proof. intros H. induction l as [|y l IH]; intros x; [reflexivity|]. cbn. rewrite H. apply IH. Qed.

(** Rows that are not in the table and have distinct keys are inserted. *)
Lemma insert_rows_fresh sc rs : distinct (sc_key sc) rs -> forall t,
  Forall (fun r => existsb (fun x => same_key (sc_key sc) x r) t = false) rs ->
  insert_rows sc rs t = Some (t ++ rs).
Proof.
  induction 1 as [|r rs Hr Hd IH]; intros t Ht; cbn [insert_rows]; [rewrite app_nil_r; reflexivity|].
  inversion Ht as [|y l H1 H2]; subst.
  unfold insert_row. replace (exists_key (sc_key sc) r t) with false.
  2:{ unfold exists_key. destruct (sc_key sc); [reflexivity|]. symmetry. exact H1. }
  cbn [andthen]. rewrite IH.
  - rewrite <- app_assoc. reflexivity.
  - rewrite Forall_forall in Hr, H2 |- *. intros s Hs. rewrite existsb_app, (H2 s Hs). cbn [existsb orb]. rewrite (Hr s Hs). reflexivity.
Qed.
Lemma distinct_filter keys p rs : distinct keys rs -> distinct keys (filter p rs).
Proof.
  induction 1 as [|r rs Hr Hd IH]; [constructor|]. cbn [filter]. destruct (p r); [|exact IH]. constructor; [|exact IH].
  rewrite Forall_forall in *. intros s Hs. apply filter_In in Hs. apply Hr, Hs.
Qed.

Record target (bi : batch_insert) (sc : schema) : Prop := {
  tg_path : sc_path sc = path_of bi;
  tg_key : sc_key sc = key_columns bi;
  tg_some : key_columns bi <> []
}.

(** On SQL Server the identity columns must be key columns. *)
Definition identity_is_key (bi : batch_insert) : Prop :=
  bi_dialect bi = SQLServer -> forall x, In x (identity_columns bi) -> In x (key_columns bi).
Lemma update_columns_all bi : bi_dialect bi = SQLServer -> identity_is_key bi -> update_columns bi = non_key_columns bi.
Proof.
  intros Hd Hi. unfold update_columns, non_key_columns. apply filter_ext'. intros x _.
  destruct (bmem x (key_columns bi)) eqn:E; [reflexivity|]. cbn [negb andb].
  replace (bmem x (identity_columns bi)) with false; [reflexivity|]. symmetry. apply bmem_not_In. intros H.
  apply bmem_not_In in E. apply E. exact (Hi Hd x H).
Qed.
Lemma identity_is_key_updatable bi : identity_is_key bi -> updatable bi.
Proof. intros Hi Hu. destruct (proj1 (has_update_iff bi) Hu) as (Hd & _ & Hn). rewrite update_columns_all by assumption. exact Hn. Qed.

Definition set_of (bi : batch_insert) : trow -> trow -> trow :=
  match bi_dialect bi, non_key_columns bi, key_columns bi with
  | MySQL, [], k0 :: _ => set_columns [(k0, Old k0)]
  | _, _, _ => set_columns (map (fun c => (c, New c)) (non_key_columns bi))
  end.
Lemma set_of_keeps bi : keeps_keys (key_columns bi) (set_of bi).
Proof.
  unfold set_of. destruct (bi_dialect bi); try apply new_columns_keep.
  destruct (non_key_columns bi) eqn:E; [|rewrite <- E; apply new_columns_keep].
  destruct (key_columns bi) eqn:Ek; [intros ? ? ? []|apply old_column_keeps].
Qed.
Lemma set_of_takes_over bi n o : same_row (set_of bi n o) (takes_over (non_key_columns bi) n o).
Proof.
  intros c. unfold set_of. destruct (bi_dialect bi); try apply set_new_columns.
  destruct (non_key_columns bi) eqn:E; [|apply set_new_columns].
  destruct (key_columns bi); [reflexivity|apply set_old_column].
Qed.

Lemma non_key_in bi x : In x (non_key_columns bi) -> In x (bi_columns bi).
Proof. unfold non_key_columns. rewrite filter_In. tauto. Qed.
Lemma den_map_new bi l : names_readable bi -> (forall x, In x l -> In x (bi_columns bi)) ->
  map (fun x => (den bi x, New (den bi x))) l = map (fun x => (x, New x)) l.
Proof. intros Hr Hl. apply map_ext_in. intros x Hx. rewrite (den_id bi x Hr (Hl x Hx)). reflexivity. Qed.
Lemma den_map_same bi l : names_readable bi -> (forall x, In x l -> In x (bi_columns bi)) ->
  map (fun x => (den bi x, den bi x)) l = map (fun x => (x, x)) l.
Proof. intros Hr Hl. apply map_ext_in. intros x Hx. rewrite (den_id bi x Hr (Hl x Hx)). reflexivity. Qed.

(** One batch. *)
Lemma run_batch bi sc (ch : list (list val)) t : bi_columns bi <> [] -> bi_dialect bi <> Other -> names_readable bi -> target bi sc ->
  identity_is_key bi -> 0 < List.length ch -> Forall (fun r => List.length r = width bi) ch ->
  distinct (key_columns bi) (map (incoming bi (sc_default sc)) ch) ->
  run sc (bi_dialect bi) (execs (batch_calls bi (List.length ch) (concat ch))) t
  = Some (upserted_by (key_columns bi) (set_of bi) (map (incoming bi (sc_default sc)) ch) t).
Proof.
  intros Hc Ho Hr [Hp Hk Hs] Hi Hn Hw Hd.
  set (rs := map (incoming bi (sc_default sc)) ch) in *.
  assert (Hpath : dens bi (path_of bi) = path_of bi) by (apply dens_id; [exact Hr|intros x Hx; apply in_or_app; left; exact Hx]).
  assert (Hcols : dens bi (bi_columns bi) = bi_columns bi) by (apply dens_id; [exact Hr|intros x Hx; apply in_or_app; right; exact Hx]).
  assert (Hkeys : dens bi (key_columns bi) = key_columns bi) by (apply dens_id; [exact Hr|intros x Hx; apply in_or_app; right; apply key_columns_in; exact Hx]).
  assert (Hsets : map (fun x => (den bi x, New (den bi x))) (non_key_columns bi) = map (fun x => (x, New x)) (non_key_columns bi)).
  { apply den_map_new; [exact Hr|apply non_key_in]. }
  assert (Hsame : map (fun x => (den bi x, den bi x)) (key_columns bi) = map (fun x => (x, x)) (key_columns bi)).
  { apply den_map_same; [exact Hr|apply key_columns_in]. }
  assert (Hpres : all_present (concat ch) (indices (List.length ch) (width bi)) (width bi) = true).
  { apply indices_present, concat_length, Hw. }
  assert (Hrows : map (fun idx => assign (bi_columns bi) (values_of (concat ch) idx) (sc_default sc)) (indices (List.length ch) (width bi)) = rs).
  { apply rows_incoming. exact Hw. }
  fold (width bi) in *.
  assert (Hins : read_statement (bi_dialect bi) (insert_text bi (List.length ch))
    = Some (Insert {| ins_table := path_of bi; ins_columns := bi_columns bi; ins_rows := indices (List.length ch) (width bi); ins_clause := clause_of bi |})).
  { rewrite read_insert_text by assumption. rewrite Hpath, Hcols. reflexivity. }
  unfold batch_calls. rewrite execs_app. cbn [execs flat_map app].
  assert (Hnosrv : bi_dialect bi <> SQLServer -> run sc (bi_dialect bi) [(insert_text bi (List.length ch), concat ch)] t
                   = Some (upserted_by (key_columns bi) (set_of bi) rs t)).
  { intros Hd'. cbn [run]. rewrite Hins. cbn [andthen exec_statement]. unfold exec_insert. cbn [ins_table ins_columns ins_rows ins_clause].
    fold (width bi). rewrite Hp, lists_eqb_refl, Hpres, Hrows. cbn [andb].
    assert (Hfold : forall sets, set_of bi = set_columns sets ->
      fold_left (fun t r => insert_or_set sc sets r t) rs t = upserted_by (key_columns bi) (set_of bi) rs t).
    { intros sets E. rewrite <- upsert_fold by (apply set_of_keeps || exact Hd). rewrite E.
      apply fold_left_ext. intros t' r. rewrite insert_or_set_one by (rewrite Hk; exact Hs). rewrite Hk. reflexivity. }
    unfold clause_of. destruct (key_columns bi) as [|k0 ks] eqn:Ek; [congruence|]. rewrite <- Ek in *.
    rewrite Hkeys, Hsets.
    destruct (bi_dialect bi) eqn:Ed; try congruence.
    - rewrite Hk, lists_eqb_refl. rewrite Hfold by (unfold set_of; rewrite Ed; reflexivity). reflexivity.
    - rewrite Hk, lists_eqb_refl. rewrite Hfold by (unfold set_of; rewrite Ed; reflexivity). reflexivity.
    - rewrite Hfold; [reflexivity|]. unfold set_of. rewrite Ed. destruct (non_key_columns bi) eqn:En.
      + rewrite Ek, (den_id bi k0 Hr); [reflexivity|]. apply key_columns_in. rewrite Ek. left. reflexivity.
      + rewrite <- Hsets. reflexivity. }
  assert (Hsrv : forall t1, bi_dialect bi = SQLServer ->
    (forall r, existsb (fun x => same_key (key_columns bi) x r) t1 = existsb (fun x => same_key (key_columns bi) x r) t) ->
    run sc (bi_dialect bi) [(insert_text bi (List.length ch), concat ch)] t1
    = Some (t1 ++ filter (fun r => negb (existsb (fun x => same_key (key_columns bi) x r) t)) rs)).
  { intros t1 Ed He. cbn [run]. rewrite Hins. cbn [andthen exec_statement]. unfold exec_insert. cbn [ins_table ins_columns ins_rows ins_clause].
    fold (width bi). rewrite Hp, lists_eqb_refl, Hpres, Hrows. cbn [andb].
    unfold clause_of. destruct (key_columns bi) as [|k0 ks] eqn:Ek; [congruence|]. rewrite <- Ek in *. rewrite Ed, Hsame.
    rewrite (filter_ext' _ (fun r => negb (existsb (fun x => same_key (key_columns bi) x r) t))).
    2:{ intros r _. f_equal. rewrite <- He. apply existsb_ext'. intros x _. apply joined_same_key. }
    rewrite insert_rows_fresh; [reflexivity| |].
    - rewrite Hk. apply distinct_filter. exact Hd.
    - rewrite Hk. apply Forall_forall. intros r H. apply filter_In in H as [_ H]. rewrite He. destruct (existsb _ t); [discriminate|reflexivity]. }
  destruct (has_update bi) eqn:Eu.
  - destruct (proj1 (has_update_iff bi) Eu) as (Ed & _ & Hnk). cbn [execs flat_map app run].
    rewrite read_update_text; [|exact Ed|exact Hc|exact Hn|exact Hs|apply identity_is_key_updatable; assumption].
    cbn [andthen exec_statement]. unfold exec_update. cbn [upd_table upd_sets upd_columns upd_rows upd_same]. fold (width bi).
    rewrite update_columns_all by assumption.
    rewrite Hpath, Hcols, Hsame, Hsets, Hp, lists_eqb_refl. fold (width bi). rewrite Hpres, Hrows. cbn [andb andthen].
    set (t1 := map _ t).
    assert (Et1 : t1 = map (fun x => match find (fun r => same_key (key_columns bi) x r) rs with Some r => set_of bi r x | None => x end) t).
    { subst t1. apply map_ext. intros x. rewrite (find_ext' _ (fun r => same_key (key_columns bi) x r)) by (intros; apply joined_same_key).
      unfold set_of. rewrite Ed. reflexivity. }
    change (run sc (bi_dialect bi) [(insert_text bi (List.length ch), concat ch)] t1 = Some (upserted_by (key_columns bi) (set_of bi) rs t)).
    rewrite Hsrv; [|exact Ed|].
    + rewrite Et1. reflexivity.
    + intros r. rewrite Et1, existsb_map. apply existsb_ext'. intros x _. destruct (find _ rs); [|reflexivity].
      apply same_key_ext. intros k Hin. apply set_of_keeps. exact Hin.
  - cbn [execs flat_map app]. destruct (dialect_eqb (bi_dialect bi) SQLServer) eqn:Es.
    + assert (Ed : bi_dialect bi = SQLServer) by (destruct (bi_dialect bi); try discriminate; reflexivity).
      rewrite Hsrv by (assumption || reflexivity). unfold upserted_by. f_equal. f_equal.
      assert (Hnk : non_key_columns bi = []).
      { destruct (non_key_columns bi) eqn:E; [reflexivity|]. exfalso.
        assert (has_update bi = true); [|congruence]. apply has_update_iff. rewrite E. repeat split; [exact Ed|exact Hs|discriminate]. }
      rewrite <- (map_id t) at 1. apply map_ext. intros x. destruct (find _ rs); [|reflexivity].
      unfold set_of. rewrite Ed, Hnk. reflexivity.
    + apply Hnosrv. intros E. rewrite E in Es. discriminate.
Qed.

Lemma run_app sc d a b t : run sc d (a ++ b) t = andthen (run sc d a t) (run sc d b).
Proof.
  revert t. induction a as [|[x y] a IH]; intros t; [reflexivity|]. cbn [app run]. destruct (read_statement d x); [|reflexivity].
  cbn [andthen]. destruct (exec_statement sc s y t); [|reflexivity]. cbn [andthen]. apply IH.
Qed.
Lemma run_unrelated sc d l t : (forall s, In s l -> read_statement d (fst s) = Some Unrelated) -> run sc d l t = Some t.
Proof.
  induction l as [|[x y] l IH]; intros H; [reflexivity|]. cbn [run]. pose proof (H (x, y) (or_introl eq_refl)) as H1. cbn [fst] in H1. rewrite H1.
  cbn [andthen exec_statement]. apply IH. intros s Hs. apply H. right. exact Hs.
Qed.

Lemma run_batches bi sc (chunks : list (list (list val))) : bi_columns bi <> [] -> bi_dialect bi <> Other -> names_readable bi -> target bi sc ->
  identity_is_key bi -> Forall (fun ch => 0 < List.length ch) chunks -> Forall (Forall (fun r => List.length r = width bi)) chunks ->
  distinct (key_columns bi) (map (incoming bi (sc_default sc)) (concat chunks)) -> forall t,
  run sc (bi_dialect bi) (flat_map (fun ch => execs (batch_calls bi (List.length ch) (concat ch))) chunks) t
  = Some (upserted_by (key_columns bi) (set_of bi) (map (incoming bi (sc_default sc)) (concat chunks)) t).
Proof.
  intros Hc Ho Hr Ht Hi Hn Hw. induction chunks as [|ch chunks IH]; intros Hd t.
  - cbn [flat_map run concat map]. rewrite upserted_nil. reflexivity.
  - inversion Hn as [|? ? Hn1 Hn2]; subst. inversion Hw as [|? ? Hw1 Hw2]; subst.
    cbn [concat flat_map] in *. rewrite map_app in Hd |- *. destruct (distinct_app _ _ _ Hd) as [Hd1 Hd2].
    rewrite run_app, run_batch by assumption. cbn [andthen]. rewrite IH by assumption.
    rewrite upserted_by_app by (apply set_of_keeps || exact Hd). reflexivity.
Qed.

Theorem batch_is_upsert str bi sc (rows : list (list val)) t : usable bi -> bi_dialect bi <> Other -> names_readable bi ->
  target bi sc -> identity_is_key bi -> Forall (fun r => List.length r = width bi) rows ->
  distinct (key_columns bi) (map (incoming bi (sc_default sc)) rows) ->
  exists cs t', batch_plan str bi rows false = (cs, Finished)
    /\ run sc (bi_dialect bi) (execs cs) t = Some t'
    /\ same_table t' (upserted (key_columns bi) (non_key_columns bi) (map (incoming bi (sc_default sc)) rows) t).
Proof.
  intros Hu Ho Hr Ht Hi Hw Hd.
  destruct (batch_plan_chunks str bi rows false Hu) as (chunks & rest & Hrows & Hch & Hp & Hf).
  rewrite (Hf eq_refl), app_nil_r in Hrows. subst rows.
  exists (before_calls bi ++ flat_map (fun ch => batch_calls bi (List.length ch) (concat ch)) chunks ++ after_calls str bi false).
  exists (upserted_by (key_columns bi) (set_of bi) (map (incoming bi (sc_default sc)) (concat chunks)) t).
  split; [exact Hp|]. split.
  - rewrite !execs_app, !run_app, execs_flat_map.
    rewrite (run_unrelated sc _ (execs (before_calls bi))) by (intros s Hs; apply (before_unrelated bi s _ Hs)). cbn [andthen]. rewrite run_app.
    rewrite run_batches; [|apply (us_columns _ Hu)|exact Ho|exact Hr|exact Ht|exact Hi| |apply Forall_concat_inv; exact Hw|exact Hd].
    + cbn [andthen]. apply run_unrelated. intros s Hs. apply (after_unrelated str bi false s _ Hs).
    + eapply Forall_impl; [|exact Hch]. cbn. tauto.
  - apply upserted_by_same. apply set_of_takes_over.
Qed.

(** In terms of the configuration. *)
Theorem configured_upsert str bi sc (rows : list (list val)) t : usable bi -> bi_dialect bi <> Other -> names_readable bi ->
  bi_keys bi <> [] -> incl (bi_keys bi) (bi_columns bi) -> sc_path sc = path_of bi -> sc_key sc = bi_keys bi ->
  identities_are_keys bi -> Forall (fun r => List.length r = width bi) rows ->
  distinct (bi_keys bi) (map (incoming bi (sc_default sc)) rows) ->
  exists cs t', batch_plan str bi rows false = (cs, Finished)
    /\ run sc (bi_dialect bi) (execs cs) t = Some t'
    /\ same_table t' (upserted (bi_keys bi) (filter (fun x => negb (bmem x (bi_keys bi))) (bi_columns bi))
                               (map (incoming bi (sc_default sc)) rows) t).
Proof.
  intros Hu Ho Hr Hk Hin Hp Hsk Hi Hw Hd.
  assert (Ek : key_columns bi = bi_keys bi).
  { unfold key_columns. replace (forallb _ _) with true; [reflexivity|]. symmetry. apply forallb_forall. intros k H. apply bmem_In, Hin, H. }
  destruct (batch_is_upsert str bi sc rows t) as (cs & t' & H1 & H2 & H3); try assumption.
  - split; rewrite ?Ek; assumption.
  - intros Hds x Hx. unfold identity_columns in Hx. apply filter_In in Hx as [Hx Hc]. apply bmem_In in Hc. rewrite Ek. apply Hi; assumption.
  - rewrite Ek. exact Hd.
  - exists cs, t'. unfold non_key_columns in H3. rewrite Ek in H3. auto.
Qed.

(** Without a key the rows are appended. *)
Lemma insert_rows_plain sc rs : sc_key sc = [] -> forall t, insert_rows sc rs t = Some (t ++ rs).
Proof.
  intros Hk. induction rs as [|r rs IH]; intros t; cbn [insert_rows]; [rewrite app_nil_r; reflexivity|].
  unfold insert_row, exists_key. rewrite Hk. cbn [andthen]. rewrite IH, <- app_assoc. reflexivity.
Qed.
Theorem batch_is_append str bi sc (rows : list (list val)) t : usable bi -> names_readable bi ->
  sc_path sc = path_of bi -> sc_key sc = [] -> bi_keys bi = [] -> Forall (fun r => List.length r = width bi) rows ->
  exists cs, batch_plan str bi rows false = (cs, Finished)
    /\ run sc (bi_dialect bi) (execs cs) t = Some (t ++ map (incoming bi (sc_default sc)) rows).
Proof.
  intros Hu Hr Hp Hk Hkeys Hw. destruct (batch_plan_chunks str bi rows false Hu) as (chunks & rest & Hrows & Hch & Hpl & Hf).
  rewrite (Hf eq_refl), app_nil_r in Hrows. subst rows.
  exists (before_calls bi ++ flat_map (fun ch => batch_calls bi (List.length ch) (concat ch)) chunks ++ after_calls str bi false).
  split; [exact Hpl|]. rewrite !execs_app, !run_app, execs_flat_map.
  rewrite (run_unrelated sc _ (execs (before_calls bi))) by (intros s Hs; apply (before_unrelated bi s _ Hs)). cbn [andthen].
  assert (Hkc : key_columns bi = []) by (unfold key_columns; rewrite Hkeys; reflexivity).
  assert (Hpath : dens bi (path_of bi) = path_of bi) by (apply dens_id; [exact Hr|intros x Hx; apply in_or_app; left; exact Hx]).
  assert (Hcols : dens bi (bi_columns bi) = bi_columns bi) by (apply dens_id; [exact Hr|intros x Hx; apply in_or_app; right; exact Hx]).
  apply Forall_concat_inv in Hw.
  assert (H : forall t, run sc (bi_dialect bi) (flat_map (fun ch => execs (batch_calls bi (List.length ch) (concat ch))) chunks) t
                        = Some (t ++ map (incoming bi (sc_default sc)) (concat chunks))).
  { clear Hpl t. induction chunks as [|ch chunks IH]; intros t; [cbn; rewrite app_nil_r; reflexivity|].
    inversion Hch as [|? ? [Hn _] Hch2]; subst. inversion Hw as [|? ? Hw1 Hw2]; subst.
    cbn [flat_map concat]. rewrite run_app. unfold batch_calls at 1.
    replace (has_update bi) with false by (symmetry; unfold has_update; rewrite Hkc; reflexivity).
    cbn [app execs flat_map run]. rewrite read_insert_text by (apply (us_columns _ Hu) || exact Hn). cbn [andthen exec_statement].
    unfold exec_insert. cbn [ins_table ins_columns ins_rows ins_clause]. rewrite Hpath, Hcols, Hp, lists_eqb_refl. fold (width bi).
    rewrite indices_present by (apply concat_length; exact Hw1). cbn [andb].
    unfold clause_of. rewrite Hkc. rewrite rows_incoming by exact Hw1. rewrite insert_rows_plain by exact Hk. cbn [andthen].
    rewrite IH by assumption. rewrite map_app, app_assoc. reflexivity. }
  rewrite run_app, H. cbn [andthen]. apply run_unrelated. intros s Hs. apply (after_unrelated str bi false s _ Hs).
Qed.
