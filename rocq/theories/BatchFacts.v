(** Facts about ExecContext of batch_insert.go: which rows it sends, and what the
    database does with them. *)
From Verif Require Import GoStr GoStrFacts ModelSq SpecSql SqFacts ModelBatch SpecInsert BatchText.
From Coq Require Import ZifyBool ZifyNat.

(** The statements that are executed, with their arguments. *)
Definition execs {V} (cs : list (call V)) : list (bytes * list V) :=
  flat_map (fun c => match c with Exec text args => [(text, args)] | Prepare _ => [] end) cs.
Definition prepared {V} (cs : list (call V)) : list bytes :=
  flat_map (fun c => match c with Prepare text => [text] | Exec _ _ => [] end) cs.
Lemma execs_app {V} (a b : list (call V)) : execs (a ++ b) = execs a ++ execs b.
Proof. apply flat_map_app. Qed.
Lemma delivered_app {V} d (a b : list (bytes * list V)) : delivered d (a ++ b) = delivered d a ++ delivered d b.
Proof. apply flat_map_app. Qed.

(** The configurations for which the batch size is positive. *)
Definition width (bi : batch_insert) : nat := List.length (bi_columns bi).
Record usable (bi : batch_insert) : Prop := {
  us_columns : bi_columns bi <> [];
  us_batchsize : (0 <= bi_batchsize bi)%Z;
  us_keys : List.length (bi_keys bi) <= width bi;
  us_limit : bi_dialect bi = Other \/ (2 * Z.of_nat (width bi) <= parameter_limit (bi_dialect bi))%Z
}.
Lemma param_limit_is d : param_limit d = parameter_limit d.
Proof. destruct d; reflexivity. Qed.
Lemma usable_batch_size bi : usable bi -> (1 <= batch_size bi)%Z.
Proof.
  intros [Hc Hb _ Hl]. rewrite <- param_limit_is in Hl. unfold batch_size. fold (width bi) in *.
  assert (Hw : (0 < Z.of_nat (width bi))%Z) by (unfold width; destruct (bi_columns bi); [congruence|cbn; lia]).
  set (n0 := if (bi_batchsize bi <=? 0)%Z then 500%Z else bi_batchsize bi).
  assert (Hn0 : (1 <= n0)%Z) by (subst n0; destruct (bi_batchsize bi <=? 0)%Z eqn:E; lia). clearbody n0.
  set (n1 := if _ && _ then 25%Z else n0).
  assert (Hn1 : (1 <= n1)%Z) by (subst n1; destruct (_ && _); lia). clearbody n1.
  destruct (0 <? param_limit (bi_dialect bi))%Z eqn:E; [|exact Hn1].
  destruct Hl as [Hl|Hl]; [rewrite Hl in E; discriminate|].
  assert (2 <= param_limit (bi_dialect bi) / Z.of_nat (width bi))%Z.
  { apply Z.div_le_lower_bound; lia. }
  destruct (_ <? n1)%Z; [|exact Hn1]. set (q := (_ / _)%Z) in *. clearbody q. lia.
Qed.
Lemma usable_batch_limit bi : usable bi -> bi_dialect bi <> Other ->
  (batch_size bi * Z.of_nat (width bi) <= parameter_limit (bi_dialect bi))%Z.
Proof.
  intros [Hc _ _ _] Hd. rewrite <- param_limit_is. unfold batch_size. fold (width bi) in *.
  assert (Hw : (0 < Z.of_nat (width bi))%Z) by (unfold width; destruct (bi_columns bi); [congruence|cbn; lia]).
  set (n1 := if _ && _ then 25%Z else _). clearbody n1.
  replace (0 <? param_limit (bi_dialect bi))%Z with true by (destruct (bi_dialect bi); try reflexivity; congruence).
  pose proof (Z.mul_div_le (param_limit (bi_dialect bi)) (Z.of_nat (width bi)) Hw) as H.
  destruct (_ <? _)%Z eqn:E; nia.
Qed.

(** ** Batches *)
(** The batches that the loop forms: every one has at least one and at most
    [batch_size] rows. *)
Lemma batch_loop_chunks {V} bi fails : (1 <= batch_size bi)%Z -> forall (rows before : list (list V)),
  (Z.of_nat (List.length before) < batch_size bi)%Z ->
  exists chunks rest,
    before ++ rows = concat chunks ++ rest
    /\ Forall (fun ch => 0 < List.length ch /\ (Z.of_nat (List.length ch) <= batch_size bi)%Z) chunks
    /\ batch_loop bi rows fails (List.length before) (concat before)
       = (flat_map (fun ch => batch_calls bi (List.length ch) (concat ch)) chunks, if fails then Errored else Finished)
    /\ (fails = false -> rest = []).
Proof.
  intros Hb rows. induction rows as [|r rows IH]; intros before Hl.
  - cbn [batch_loop]. destruct fails.
    + exists [], before. rewrite app_nil_r. repeat split; [constructor|discriminate].
    + destruct before as [|r0 b].
      * exists [], []. repeat split. constructor.
      * exists [r0 :: b], []. rewrite !app_nil_r. cbn [concat flat_map]. rewrite !app_nil_r. repeat split.
        constructor; [|constructor]. cbn [List.length] in *. lia.
  - cbn [batch_loop]. destruct (batch_size bi <=? Z.of_nat (S (List.length before)))%Z eqn:E.
    + destruct (IH [] ltac:(cbn; lia)) as (chunks & rest & Hr & Hch & Hbl & Hf). cbn [List.length concat app] in Hr, Hbl.
      rewrite Hbl. exists ((before ++ [r]) :: chunks), rest. cbn [concat flat_map]. split; [|split; [|split]].
      * rewrite <- !app_assoc. cbn [app]. rewrite Hr. reflexivity.
      * constructor; [|exact Hch]. rewrite app_length. cbn [List.length]. lia.
      * f_equal. f_equal. f_equal.
        -- rewrite app_length. cbn [List.length]. lia.
        -- rewrite concat_app. cbn [concat]. rewrite app_nil_r. reflexivity.
      * exact Hf.
    + destruct (IH (before ++ [r])) as (chunks & rest & Hr & Hch & Hbl & Hf).
      { rewrite app_length. cbn [List.length]. lia. }
      rewrite app_length, Nat.add_1_r, concat_app in Hbl. cbn [concat] in Hbl. rewrite app_nil_r in Hbl.
      exists chunks, rest. rewrite <- Hr, <- app_assoc. repeat split; assumption.
Qed.

(** ** Statements and arguments *)
Lemma nth_concat {V} (w : nat) (ch : list (list V)) : Forall (fun r => List.length r = w) ch ->
  map (map (nth_error (concat ch))) (indices (List.length ch) w) = map (map Some) ch.
Proof.
  intros H. unfold indices.
  assert (Hg : forall (pre : list V) (ch : list (list V)), Forall (fun r => List.length r = w) ch -> forall s, List.length pre = s * w ->
    map (map (nth_error (pre ++ concat ch))) (map (fun i => seq (i * w) w) (seq s (List.length ch))) = map (map Some) ch).
  { intros pre ch0 H0. revert pre. induction H0 as [|r ch0 Hr H0 IH]; intros pre s Hs; [reflexivity|].
    cbn [concat List.length seq map]. f_equal.
    - assert (Hk : forall k (p q : list V), List.length p = k -> map (nth_error (p ++ r ++ q)) (seq k (List.length r)) = map Some r).
      { clear. induction r as [|v r IH]; intros k p q Hk; [reflexivity|]. cbn [List.length seq map]. f_equal.
        - rewrite nth_error_app2 by lia. subst k. rewrite Nat.sub_diag. reflexivity.
        - specialize (IH (S k) (p ++ [v]) q). rewrite <- app_assoc in IH. apply IH. rewrite app_length. cbn. lia. }
      rewrite <- Hr at 2. apply Hk. exact Hs.
    - specialize (IH (pre ++ r) (S s)). rewrite <- app_assoc in IH. apply IH. rewrite app_length. lia. }
  apply (Hg [] ch H 0). reflexivity.
Qed.
Lemma concat_length {V} (w : nat) (ch : list (list V)) : Forall (fun r => List.length r = w) ch ->
  List.length (concat ch) = List.length ch * w.
Proof. induction 1 as [|r ch Hr H IH]; [reflexivity|]. cbn [concat List.length]. rewrite app_length. lia. Qed.
Lemma indices_present {V} (w n : nat) (args : list V) : List.length args = n * w ->
  all_present args (indices n w) w = true.
Proof.
  intros H. unfold all_present, indices. apply andb_true_iff. split.
  - apply forallb_forall. intros l Hl. apply in_map_iff in Hl as (i & <- & Hi). apply in_seq in Hi.
    rewrite seq_length, Nat.eqb_refl. cbn [andb]. apply forallb_forall. intros k Hk. apply in_seq in Hk. rewrite H. apply Nat.ltb_lt. nia.
  - rewrite (concat_length w).
    + rewrite map_length, seq_length, H. apply Nat.eqb_refl.
    + apply Forall_map, Forall_forall. intros i _. apply seq_length.
Qed.

Lemma has_update_iff bi : has_update bi = true <-> bi_dialect bi = SQLServer /\ key_columns bi <> [] /\ non_key_columns bi <> [].
Proof.
  unfold has_update. destruct (key_columns bi), (non_key_columns bi), (bi_dialect bi); split; try discriminate;
    try (intros (? & ? & ?); congruence); intros _; repeat split; discriminate.
Qed.

(** Identity columns must be keys on SQL Server, or there is nothing (or not all) to
    update. *)
Definition updatable (bi : batch_insert) : Prop := has_update bi = true -> update_columns bi <> [].

Lemma batch_calls_delivered {V} bi (ch : list (list V)) : bi_columns bi <> [] -> updatable bi -> 0 < List.length ch ->
  Forall (fun r => List.length r = width bi) ch ->
  delivered (bi_dialect bi) (execs (batch_calls bi (List.length ch) (concat ch))) = map (map Some) ch.
Proof.
  intros Hc Hu Hn Hw. unfold batch_calls. rewrite execs_app, delivered_app.
  replace (delivered (bi_dialect bi) (execs (if has_update bi then [Exec (update_text bi (List.length ch)) (concat ch)] else []))) with (@nil (list (option V))).
  2:{ destruct (has_update bi) eqn:E; [|reflexivity]. cbn [execs flat_map app delivered fst snd].
      destruct (proj1 (has_update_iff bi) E) as (Hd & Hk & _).
      rewrite read_update_text by auto. reflexivity. }
  cbn [app execs flat_map delivered fst snd].
  rewrite read_insert_text by assumption. cbn [ins_rows]. rewrite app_nil_r. apply nth_concat. exact Hw.
Qed.
Lemma batch_calls_fits {V} bi (ch : list (list V)) : bi_columns bi <> [] -> updatable bi -> 0 < List.length ch ->
  Forall (fun r => List.length r = width bi) ch ->
  Forall (fits (bi_dialect bi) (dens bi (path_of bi)) (dens bi (bi_columns bi))) (execs (batch_calls bi (List.length ch) (concat ch))).
Proof.
  intros Hc Hu Hn Hw. unfold batch_calls. rewrite execs_app. apply Forall_app. split.
  - destruct (has_update bi) eqn:E; [|constructor]. constructor; [|constructor].
    destruct (proj1 (has_update_iff bi) E) as (Hd & Hk & _).
    unfold fits. cbn [fst snd]. rewrite read_update_text by auto. cbn. split; [reflexivity|]. split; [reflexivity|].
    unfold dens. rewrite map_length. apply indices_present. apply concat_length. exact Hw.
  - constructor; [|constructor]. unfold fits. cbn [fst snd]. rewrite read_insert_text by auto. cbn. split; [reflexivity|]. split; [reflexivity|].
    unfold dens. rewrite map_length. apply indices_present. apply concat_length. exact Hw.
Qed.
Lemma batch_calls_count {V} bi (ch : list (list V)) s : bi_columns bi <> [] -> updatable bi -> 0 < List.length ch ->
  Forall (fun r => List.length r = width bi) ch ->
  In s (execs (batch_calls bi (List.length ch) (concat ch))) ->
  row_count (bi_dialect bi) s = Some (List.length ch) /\ List.length (snd s) = List.length ch * width bi.
Proof.
  intros Hc Hu Hn Hw. unfold batch_calls. rewrite execs_app, in_app_iff. rewrite <- (concat_length _ _ Hw).
  assert (Hi : forall n w, List.length (indices n w) = n) by (intros; unfold indices; rewrite map_length; apply seq_length).
  intros [H|H].
  - destruct (has_update bi) eqn:E; [|destruct H]. destruct H as [<-|[]].
    destruct (proj1 (has_update_iff bi) E) as (Hd & Hk & _).
    unfold row_count. cbn [fst snd]. rewrite read_update_text by auto. cbn. rewrite Hi. auto.
  - destruct H as [<-|[]]. unfold row_count. cbn [fst snd]. rewrite read_insert_text by auto. cbn. rewrite Hi. auto.
Qed.

(** The other statements. *)
Lemma identity_insert_reads {V} bi on (s : bytes * list V) : In s (execs (identity_insert bi on)) ->
  forall d, read_statement d (fst s) = Some Unrelated.
Proof.
  unfold identity_insert. destruct (identity_columns bi); [intros []|]. destruct (bi_dialect bi); try intros [].
  - subst s. cbn [fst]. intros d. reflexivity.
  - contradiction.
Qed.
Lemma setvals_reads {V} str bi (s : bytes * list V) : In s (execs (setvals str bi)) ->
  forall d, read_statement d (fst s) = Some Unrelated.
Proof.
  unfold setvals. destruct (bi_dialect bi); try (intros []; fail).
  induction (identity_columns bi) as [|x l IH]; [intros []|]. cbn [map execs flat_map app]. intros [<-|H] d; [reflexivity|].
  apply IH. exact H.
Qed.
Lemma unrelated_delivered {V} d (l : list (bytes * list V)) :
  (forall s, In s l -> read_statement d (fst s) = Some Unrelated) -> delivered d l = [].
Proof.
  induction l as [|s l IH]; intros H; [reflexivity|]. cbn [delivered flat_map].
  rewrite (H s) by (left; reflexivity). apply IH. intros x Hx. apply H. right. exact Hx.
Qed.
Lemma unrelated_fits {V} d p c (l : list (bytes * list V)) :
  (forall s, In s l -> read_statement d (fst s) = Some Unrelated) -> Forall (fits d p c) l.
Proof. intros H. apply Forall_forall. intros s Hs. unfold fits. rewrite (H s Hs). exact I. Qed.

(** ** The whole plan *)
Definition before_calls {V} (bi : batch_insert) : list (call V) :=
  let n := Z.to_nat (batch_size bi) in
  identity_insert bi (B" ON") ++ [Prepare (insert_text bi n)] ++ (if has_update bi then [Prepare (update_text bi n)] else []).
Definition after_calls {V} (str : bytes -> V) (bi : batch_insert) (fails : bool) : list (call V) :=
  if fails then [] else identity_insert bi (B" OFF") ++ setvals str bi.
Lemma batch_plan_chunks {V} str bi (rows : list (list V)) fails : usable bi ->
  exists chunks rest,
    rows = concat chunks ++ rest
    /\ Forall (fun ch => 0 < List.length ch /\ (Z.of_nat (List.length ch) <= batch_size bi)%Z) chunks
    /\ batch_plan str bi rows fails
       = (before_calls bi ++ flat_map (fun ch => batch_calls bi (List.length ch) (concat ch)) chunks ++ after_calls str bi fails,
          if fails then Errored else Finished)
    /\ (fails = false -> rest = []).
Proof.
  intros Hu. pose proof (usable_batch_size bi Hu) as Hb. destruct Hu as [Hc Hz Hk _].
  destruct (batch_loop_chunks bi fails Hb rows [] ltac:(cbn; lia)) as (chunks & rest & Hr & Hch & Hbl & Hf).
  exists chunks, rest. split; [exact Hr|]. split; [exact Hch|]. split; [|exact Hf].
  unfold batch_plan.
  replace (List.length (bi_columns bi) <? List.length (key_columns bi)) with false.
  2:{ symmetry. apply Nat.ltb_ge. unfold key_columns. destruct (forallb _ _); [exact Hk|cbn; lia]. }
  destruct (bi_columns bi) as [|c0 cols] eqn:Ec; [congruence|].
  replace (bi_batchsize bi <? 0)%Z with false by (symmetry; apply Z.ltb_ge; exact Hz).
  cbn [List.length concat app] in Hbl. rewrite Hbl. unfold before_calls, after_calls. destruct fails; [rewrite app_nil_r|]; reflexivity.
Qed.

Lemma before_execs {V} bi : @execs V (before_calls bi) = execs (identity_insert bi (B" ON")).
Proof.
  unfold before_calls. rewrite !execs_app. destruct (has_update bi); cbn; rewrite ?app_nil_r; reflexivity.
Qed.
Lemma before_unrelated {V} bi (s : bytes * list V) d : In s (execs (before_calls bi)) -> read_statement d (fst s) = Some Unrelated.
Proof. rewrite before_execs. intros H. apply (identity_insert_reads bi _ s H). Qed.
Lemma after_unrelated {V} str bi fails (s : bytes * list V) d : In s (execs (after_calls str bi fails)) -> read_statement d (fst s) = Some Unrelated.
Proof.
  unfold after_calls. destruct fails; [intros []|]. rewrite execs_app, in_app_iff.
  intros [H|H]; [apply (identity_insert_reads bi _ s H)|apply (setvals_reads str bi s H)].
Qed.

Lemma execs_flat_map {V X} (f : X -> list (call V)) l : execs (flat_map f l) = flat_map (fun x => execs (f x)) l.
Proof. induction l as [|x l IH]; [reflexivity|]. cbn [flat_map]. rewrite execs_app, IH. reflexivity. Qed.

Lemma Forall_concat_inv {V} (P : V -> Prop) ll : Forall P (concat ll) -> Forall (Forall P) ll.
Proof. induction ll as [|l ll IH]; intros H; [constructor|]. cbn [concat] in H. apply Forall_app in H. constructor; [apply H|apply IH, H]. Qed.

(** What the plan sends. *)
Lemma batch_plan_delivers {V} str bi (rows : list (list V)) fails cs e : usable bi -> updatable bi ->
  Forall (fun r => List.length r = width bi) rows ->
  batch_plan str bi rows fails = (cs, e) ->
  e = (if fails then Errored else Finished)
  /\ (exists rest, map (map Some) rows = delivered (bi_dialect bi) (execs cs) ++ rest /\ (fails = false -> rest = []))
  /\ Forall (fits (bi_dialect bi) (dens bi (path_of bi)) (dens bi (bi_columns bi))) (execs cs)
  /\ (forall s, In s (execs cs) ->
        read_statement (bi_dialect bi) (fst s) = Some Unrelated
        \/ exists n, row_count (bi_dialect bi) s = Some n /\ 0 < n /\ List.length (snd s) = n * width bi
                     /\ (Z.of_nat n <= batch_size bi)%Z).
Proof.
  intros Hu Hupd Hw E. destruct (batch_plan_chunks str bi rows fails Hu) as (chunks & rest & Hr & Hch & Hp & Hf).
  rewrite Hp in E. injection E as <- <-. split; [reflexivity|].
  pose proof (us_columns _ Hu) as Hc.
  assert (Hws : Forall (Forall (fun r : list V => List.length r = width bi)) chunks).
  { apply Forall_concat_inv. rewrite Hr in Hw. apply Forall_app in Hw. apply Hw. }
  rewrite !execs_app, !delivered_app.
  rewrite (unrelated_delivered _ (execs (before_calls bi))) by (intros s Hs; apply (before_unrelated bi s _ Hs)).
  rewrite (unrelated_delivered _ (execs (after_calls str bi fails))) by (intros s Hs; apply (after_unrelated str bi fails s _ Hs)).
  rewrite app_nil_r. cbn [app]. rewrite execs_flat_map.
  assert (Hchw : forall ch, In ch chunks -> 0 < List.length ch /\ (Z.of_nat (List.length ch) <= batch_size bi)%Z /\ Forall (fun r : list V => List.length r = width bi) ch).
  { intros ch Hin. rewrite Forall_forall in Hch, Hws. specialize (Hch ch Hin). specialize (Hws ch Hin). tauto. }
  split; [|split].
  - exists (map (map Some) rest). split; [|intros H; rewrite (Hf H); reflexivity].
    rewrite Hr, map_app. f_equal. clear - Hc Hupd Hchw. induction chunks as [|ch chunks IH]; [reflexivity|].
    cbn [concat flat_map]. rewrite map_app, delivered_app. destruct (Hchw ch) as (H1 & _ & H3); [left; reflexivity|].
    rewrite batch_calls_delivered by assumption. f_equal. apply IH. intros x Hx. apply Hchw. right. exact Hx.
  - apply Forall_app. split; [|apply Forall_app; split].
    + apply unrelated_fits. intros s Hs. apply (before_unrelated bi s _ Hs).
    + apply Forall_flat_map, Forall_forall. intros ch Hin. destruct (Hchw ch Hin) as (H1 & _ & H3). apply batch_calls_fits; assumption.
    + apply unrelated_fits. intros s Hs. apply (after_unrelated str bi fails s _ Hs).
  - intros s Hs. rewrite !in_app_iff in Hs. destruct Hs as [Hs|[Hs|Hs]].
    + left. apply (before_unrelated bi s _ Hs).
    + right. apply in_flat_map in Hs as (ch & Hin & Hs). destruct (Hchw ch Hin) as (H1 & H2 & H3).
      destruct (batch_calls_count bi ch s Hc Hupd H1 H3 Hs) as (Hrc & Hlen). exists (List.length ch). auto.
    + left. apply (after_unrelated str bi fails s _ Hs).
Qed.

(** Cut at the first database error. *)
Lemma cut_plan_prefix {V} (cs : list (call V)) e : forall ok cs' e', cut_plan ok cs e = (cs', e') ->
  exists rest, cs = cs' ++ rest /\ ((rest = [] /\ e' = e) \/ e' = Errored) /\ ((forall n, ok n = true) -> rest = [] /\ e' = e).
Proof.
  induction cs as [|c cs IH]; intros ok cs' e' H; cbn [cut_plan] in H.
  - injection H as <- <-. exists []. auto.
  - destruct (ok 0) eqn:E0.
    + destruct (cut_plan _ cs e) as [done e1] eqn:E. injection H as <- <-.
      destruct (IH _ _ _ E) as (rest & -> & H1 & H2). exists rest. split; [reflexivity|]. split; [exact H1|]. intros Hn. apply H2. intros n. apply Hn.
    + injection H as <- <-. exists cs. split; [reflexivity|]. split; [right; reflexivity|]. intros Hn. rewrite Hn in E0. discriminate.
Qed.

Lemma batch_exec_delivers {V} str bi (rows : list (list V)) fails ok cs e : usable bi -> updatable bi ->
  Forall (fun r => List.length r = width bi) rows ->
  batch_exec str bi rows fails ok = (cs, e) ->
  e <> Crashed
  /\ (exists rest, map (map Some) rows = delivered (bi_dialect bi) (execs cs) ++ rest /\ (e = Finished -> rest = []))
  /\ (fails = false -> (forall n, ok n = true) -> e = Finished)
  /\ Forall (fits (bi_dialect bi) (dens bi (path_of bi)) (dens bi (bi_columns bi))) (execs cs)
  /\ (forall s, In s (execs cs) ->
        read_statement (bi_dialect bi) (fst s) = Some Unrelated
        \/ exists n, row_count (bi_dialect bi) s = Some n /\ 0 < n /\ List.length (snd s) = n * width bi
                     /\ (Z.of_nat n <= batch_size bi)%Z).
Proof.
  intros Hu Hupd Hw E. unfold batch_exec in E. destruct (batch_plan str bi rows fails) as [plan e0] eqn:Ep.
  destruct (batch_plan_delivers str bi rows fails plan e0 Hu Hupd Hw Ep) as (He & (rest & Hr & Hf) & Hfit & Hcount).
  destruct (cut_plan_prefix plan e0 ok cs e E) as (more & Hpl & Hcase & Hok).
  rewrite Hpl in Hr, Hfit, Hcount. rewrite execs_app in Hr, Hfit. rewrite delivered_app in Hr.
  apply Forall_app in Hfit as [Hfit _]. split; [|split; [|split; [|split]]].
  - destruct Hcase as [(_ & ->)| ->]; [|discriminate]. rewrite He. destruct fails; discriminate.
  - exists (delivered (bi_dialect bi) (execs more) ++ rest). split; [rewrite Hr; symmetry; apply app_assoc|].
    intros Hfin. destruct Hcase as [(-> & He')|He']; [|congruence].
    rewrite He', He in Hfin. destruct fails; [discriminate|]. rewrite (Hf eq_refl). reflexivity.
  - intros -> Hn. destruct (Hok Hn) as (_ & ->). exact He.
  - exact Hfit.
  - intros s Hs. apply Hcount. rewrite execs_app. apply in_or_app. left. exact Hs.
Qed.

(** On SQL Server the identity columns that are inserted must be keys. *)
Definition identities_are_keys (bi : batch_insert) : Prop :=
  bi_dialect bi = SQLServer -> forall x, In x (bi_identity bi) -> In x (bi_columns bi) -> In x (bi_keys bi).
Lemma identities_updatable bi : identities_are_keys bi -> updatable bi.
Proof.
  intros Hi Hu. destruct (proj1 (has_update_iff bi) Hu) as (Hd & Hk & Hn).
  assert (Ek : key_columns bi = bi_keys bi) by (unfold key_columns in *; destruct (forallb _ _); [reflexivity|congruence]).
  intros E. apply Hn. destruct (non_key_columns bi) as [|x l] eqn:En; [reflexivity|exfalso].
  assert (Hx : In x (non_key_columns bi)) by (rewrite En; left; reflexivity).
  unfold non_key_columns in Hx. apply filter_In in Hx as [Hc Hx].
  assert (H : In x (update_columns bi)); [|rewrite E in H; exact H].
  unfold update_columns. apply filter_In. split; [exact Hc|]. rewrite Hx. cbn [andb].
  destruct (bmem x (identity_columns bi)) eqn:Ex; [|reflexivity]. exfalso.
  apply bmem_In in Ex. unfold identity_columns in Ex. apply filter_In in Ex as [Ex _].
  specialize (Hi Hd x Ex Hc). rewrite Ek in Hx. apply bmem_In in Hi. rewrite Hi in Hx. discriminate.
Qed.

(** Limits. *)
Lemma batch_exec_limits {V} str bi (rows : list (list V)) fails ok cs e s n : usable bi -> identities_are_keys bi -> bi_dialect bi <> Other ->
  Forall (fun r => List.length r = width bi) rows ->
  batch_exec str bi rows fails ok = (cs, e) -> In s (execs cs) -> row_count (bi_dialect bi) s = Some n ->
  0 < n /\ (Z.of_nat (List.length (snd s)) <= parameter_limit (bi_dialect bi))%Z.
Proof.
  intros Hu Hi Ho Hw E Hs Hn. destruct (batch_exec_delivers str bi rows fails ok cs e Hu (identities_updatable bi Hi) Hw E) as (_ & _ & _ & _ & H).
  destruct (H s Hs) as [Hun|(m & Hm & Hpos & Hlen & Hmax)].
  - unfold row_count in Hn. rewrite Hun in Hn. discriminate.
  - rewrite Hm in Hn. injection Hn as <-. split; [exact Hpos|]. rewrite Hlen. pose proof (usable_batch_limit bi Hu Ho). nia.
Qed.

(** The prepared statements can be read. *)
Lemma prepared_app {V} (a b : list (call V)) : prepared (a ++ b) = prepared a ++ prepared b.
Proof. apply flat_map_app. Qed.
Lemma prepared_batches {V} bi (chunks : list (list (list V))) :
  prepared (flat_map (fun ch => batch_calls bi (List.length ch) (concat ch)) chunks) = [].
Proof.
  induction chunks as [|ch chunks IH]; [reflexivity|]. cbn [flat_map]. rewrite prepared_app, IH, app_nil_r.
  unfold batch_calls. destruct (has_update bi); reflexivity.
Qed.
Lemma batch_exec_prepares {V} str bi (rows : list (list V)) fails ok cs e : usable bi -> identities_are_keys bi ->
  batch_exec str bi rows fails ok = (cs, e) ->
  Forall (fun text => read_statement (bi_dialect bi) text <> None) (prepared cs).
Proof.
  intros Hu Hi E. unfold batch_exec in E. destruct (batch_plan_chunks str bi rows fails Hu) as (chunks & rest & _ & _ & Hp & _).
  rewrite Hp in E. destruct (cut_plan_prefix _ _ _ _ _ E) as (more & Hpl & _ & _).
  assert (H : Forall (fun text => read_statement (bi_dialect bi) text <> None) (prepared (cs ++ more))).
  { rewrite <- Hpl. rewrite !prepared_app, prepared_batches. cbn [app].
    replace (prepared (after_calls str bi fails)) with (@nil bytes).
    2:{ unfold after_calls, identity_insert, setvals. destruct fails; [reflexivity|]. rewrite prepared_app.
        destruct (identity_columns bi); destruct (bi_dialect bi); try reflexivity. cbn [prepared flat_map app map].
        match goal with |- [] = flat_map ?g (map ?f ?l) => induction l as [|y l IH]; [reflexivity|exact IH] end. }
    rewrite app_nil_r. unfold before_calls. rewrite !prepared_app. pose proof (usable_batch_size bi Hu) as Hb.
    apply Forall_app. split; [|apply Forall_app; split].
    - unfold identity_insert. destruct (identity_columns bi); [constructor|]. destruct (bi_dialect bi); constructor.
    - constructor; [|constructor]. rewrite read_insert_text; [discriminate|apply (us_columns _ Hu)|lia].
    - destruct (has_update bi) eqn:Eu; [|constructor]. constructor; [|constructor].
      destruct (proj1 (has_update_iff bi) Eu) as (Hd & Hk & _).
      rewrite read_update_text; [discriminate|exact Hd|apply (us_columns _ Hu)|lia|exact Hk|apply identities_updatable; assumption]. }
  rewrite prepared_app in H. apply Forall_app in H. apply H.
Qed.
